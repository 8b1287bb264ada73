(** C66 with docstrings: the text of a class file determines its declarations up to their docstrings. *)
From Coq Require Import Ascii String List Bool Arith Lia Permutation.
From Verif Require Import PyStr PyStrFacts Exc Docstring SpecNames NamesFacts SpecText SpecImports SpecModules SpecDoc SpecLiteral PropsLiteral.
From Verif Require Import Strategies Values Tree Emit SpecData SpecTypes SpecEmit EmitFacts SpecSound BuildFacts SoundPrint SoundRead SpecEnd PropsOutput PropsRead SpecMerge SoundTop TextFacts PropsBase SpecDocs SpecNotes DocFacts Build Imports ImportsFacts TotalFacts EmitTop PropsEmit PropsEnd PropsErase PropsNotes PropsYamlLive.
From Verif Require Import Samples SampleUnique SampleEmit SampleSound SampleClear PropsUnique PropsClear DocMap SoundHash TreeProofs.
Import ListNotations.
Local Open Scope string_scope.
Local Open Scope nat_scope.

(** The docstrings of a declaration contain no triple quotes and no backslashes; so they are literals (C103). *)
Definition docs_literal (d : decl) : Prop := forall k x, shows d k x -> without_quotes3 x /\ without_backslash x.
(** A block of imports and declarations with docstrings. *)
Definition ReadsDocs (text : string) (stmts : list stmt) (ds : list decl) : Prop :=
  exists block, import_block stmts block /\ Forall (fun d => readable (without_docs d) /\ docs_literal d) ds /\ Layout (block :: map print_decl ds) text.

(** ** Without the lines of docstrings *)
Local Notation lf := (chr 10).
Local Notation split := (split_char lf).
Definition opens (l : string) : bool := startswith (TAB ++ tq) l.
Fixpoint strip (inside : bool) (ls : list string) : list string * bool :=
  match ls with
  | [] => ([], inside)
  | l :: r => if inside then strip (negb (contains tq l)) r else if opens l then strip (negb (contains tq (drop 7 l))) r else let (x, b) := strip false r in (l :: x, b)
  end.
Lemma strip_app x : forall b y x' b' y' b'', strip b x = (x', b') -> strip b' y = (y', b'') -> strip b (x ++ y)%list = ((x' ++ y')%list, b'').
Proof.
  induction x as [|l x IH]; intros b y x' b' y' b'' E E'; cbn [strip app] in *; [injection E as <- <-; exact E'|].
  destruct b; [eauto|]. destruct (opens l); [eauto|]. destruct (strip false x) as [z c] eqn:Z. injection E as <- <-. now rewrite (IH _ _ _ _ _ _ Z E').
Qed.
Lemma strip_plain ls : Forall (fun l => opens l = false) ls -> strip false ls = (ls, false).
Proof. induction 1 as [|l ls H _ IH]; [reflexivity|]. cbn [strip]. now rewrite H, IH. Qed.
Lemma split_cat a b : split (a ++ String lf b) = (split a ++ split b)%list.
Proof.
  induction a as [|c a IH]; [cbn [append split_char]; now rewrite Ascii.eqb_refl|]. cbn [append split_char]. rewrite IH. destruct (Ascii.eqb lf c); [reflexivity|]. destruct (split a) as [|h t] eqn:E; [destruct (split_char_nonnil _ _ E)|reflexivity].
Qed.
Lemma split_joins l : l <> [] -> split (join nl l) = flat_map split l.
Proof.
  induction l as [|x l IH]; [congruence|]. intros _. destruct l as [|y l]; [cbn; now rewrite app_nil_r|]. rewrite join_cons by discriminate. unfold nl. change (String lf "" ++ join (String lf "") (y :: l)) with (String lf (join nl (y :: l))). rewrite split_cat, IH by discriminate. reflexivity.
Qed.
Lemma split_forall P c s : str_forall P s = true -> Forall (fun x => str_forall P x = true) (split_char c s).
Proof.
  induction s as [|d s IH]; intros H; cbn [split_char]; [repeat constructor|]. cbn [str_forall] in H. apply andb_true_iff in H as [H1 H2]. specialize (IH H2). destruct (Ascii.eqb c d); [constructor; [reflexivity|exact IH]|].
  destruct (split_char c s) as [|h t]; [constructor; [cbn; now rewrite H1|constructor]|]. inversion IH; subst. constructor; [cbn [str_forall]; now rewrite H1|assumption].
Qed.

(** ** A docstring *)
Lemma no_tq s : without_quotes3 s -> contains tq s = false.
Proof. intros Q. apply not_true_iff_false. intros H. apply contains_spec in H as (a & b & E). now apply (Q a b). Qed.
Lemma tq_end s : contains tq (s ++ tq) = true.
Proof. apply contains_spec. exists s, "". now rewrite app_nil_r_s. Qed.
Lemma strip_inside ls : Forall (fun x => contains tq x = false) ls -> forall x, strip true (ls ++ [(x ++ tq)%string])%list = ([], false).
Proof. induction 1 as [|l ls H _ IH]; intros x; cbn [app strip]; [now rewrite tq_end|]. rewrite H. apply IH. Qed.
Lemma split_end s : exists ls x, split s = (ls ++ [x])%list /\ forall t, no_char lf t -> split (s ++ t) = (ls ++ [(x ++ t)%string])%list.
Proof.
  induction s as [|c s (ls & x & E & H)]; [exists [], ""; split; [reflexivity|intros t N; now apply split_char_single]|]. cbn [append split_char]. rewrite E. destruct (Ascii.eqb lf c) eqn:Q.
  - exists ("" :: ls), x. split; [reflexivity|]. intros t N. now rewrite (H t N).
  - destruct ls as [|l ls]; [exists [], (String c x)|exists (String c l :: ls), x]; (split; [reflexivity|]); intros t N; now rewrite (H t N).
Qed.
Lemma split_pre p s : no_char lf p -> exists h t, split s = h :: t /\ split (p ++ s) = (p ++ h) :: t.
Proof.
  intros N. destruct (split s) as [|h t] eqn:E; [destruct (split_char_nonnil _ _ E)|]. exists h, t. split; [reflexivity|]. unfold no_char in N. induction p as [|c p IH]; [exact E|]. cbn [str_forall] in N. apply andb_true_iff in N as [N1 N2]. cbn [append split_char]. apply negb_true_iff in N1. rewrite N1, (IH N2). reflexivity.
Qed.
Lemma lines_free s : without_quotes3 s -> Forall (fun x => contains tq x = false) (split s).
Proof.
  intros Q. apply Forall_forall. intros x Hx. apply no_tq. intros a b E. subst x. apply in_split in Hx as (l1 & l2 & E).
  assert (J : s = join nl (split s)) by (symmetry; apply join_split). rewrite E in J. clear E. revert s Q J. induction l1 as [|y l1 IH]; intros s Q J.
  - cbn [app] in J. destruct l2 as [|z l2].
    + cbn [join] in J. now apply (Q a b).
    + rewrite join_cons in J by discriminate. rewrite !app_assoc_s in J. now apply (Q a (b ++ nl ++ join nl (z :: l2))).
  - cbn [app] in J. rewrite join_cons in J by (destruct l1; discriminate). apply (IH (join nl (l1 ++ (a ++ quotes3 ++ b)%string :: l2)%list)); [|reflexivity]. intros u v X. apply (Q (y ++ nl ++ u) v). rewrite J, X. now rewrite !app_assoc_s.
Qed.
Lemma drop_opens x : drop 7 ((TAB ++ tq) ++ x) = x.
Proof. reflexivity. Qed.
Lemma strip_docstring body : without_quotes3 body -> strip false (split (TAB ++ tq ++ body ++ tq)) = ([], false).
Proof.
  intros Q. rewrite <- (app_assoc_s TAB tq). pose proof (lines_free body Q) as F. destruct (split_end body) as (ls & x & E & H). specialize (H tq eq_refl). rewrite E in F. apply Forall_app in F as [F _].
  destruct (split_pre (TAB ++ tq) (body ++ tq) eq_refl) as (h & t & E1 & E2). rewrite E2. rewrite H in E1. cbn [strip]. assert (O : opens ((TAB ++ tq) ++ h) = true) by (apply startswith_spec; eauto). rewrite O, drop_opens.
  destruct ls as [|l ls]; cbn [app] in E1; injection E1 as <- <-.
  - now rewrite tq_end.
  - inversion F; subst. rewrite H2. cbn [negb]. now apply strip_inside.
Qed.

(** ** Declarations *)
Definition stripped (x y : string) : Prop := strip false (split x) = (split y, false).
Lemma stripped_cat x y x' y' : stripped x x' -> stripped y y' -> stripped (x ++ String lf y) (x' ++ String lf y').
Proof. unfold stripped. intros A B. rewrite !split_cat. eapply strip_app; eauto. Qed.
Lemma stripped_join l l' : Forall2 stripped l l' -> stripped (join nl l) (join nl l').
Proof.
  induction 1 as [|x y l l' A F IH]; [reflexivity|]. destruct l as [|a l], l' as [|b l']; try (inversion F; fail); [exact A|]. rewrite !join_cons by discriminate. apply (stripped_cat x _ y); [exact A|exact IH].
Qed.
Lemma stripped_line x : no_char lf x -> opens x = false -> stripped x x.
Proof. intros N O. unfold stripped. rewrite split_char_single by exact N. apply strip_plain. now repeat constructor. Qed.
Lemma opens_word c r : word_char c = true -> opens (String c r) = false.
Proof. intros H. destruct (opens (String c r)) eqn:E; [|reflexivity]. apply startswith_spec in E as (z & E). injection E as -> _. discriminate H. Qed.
Lemma word_head n : word_like n -> n <> "" -> exists c r, n = String c r /\ word_char c = true.
Proof. intros W N. apply word_like_spec in W. destruct n as [|c r]; [congruence|]. cbn [str_forall] in W. apply andb_true_iff in W as [W _]. eauto. Qed.
Lemma tab_opens x : opens (TAB ++ x) = startswith tq x.
Proof. reflexivity. Qed.

Lemma stripped_field f : class_field (Field (fd_key f) (fd_type f) None) -> (forall x, fd_doc f = Some x -> without_quotes3 x /\ without_backslash x) -> stripped (print_field f) (print_field (Field (fd_key f) (fd_type f) None)).
Proof.
  intros Cf Dl. pose proof (field_no_nl _ Cf) as N. set (g := Field (fd_key f) (fd_type f) None) in *.
  assert (O : opens (print_field g) = false).
  { unfold print_field, g. cbn [fd_key fd_type fd_doc]. rewrite tab_opens. destruct Cf as (_ & _ & W). cbn [fd_key] in W. apply word_like_spec in W. destruct (fd_key f) as [|c r]; [reflexivity|]. cbn [str_forall] in W. apply andb_true_iff in W as [W _].
    destruct (startswith tq _) eqn:E; [|reflexivity]. apply startswith_spec in E as (z & E). injection E as -> _. discriminate W. }
  destruct (fd_doc f) as [x|] eqn:Ed.
  - destruct (Dl x eq_refl) as [Q B]. assert (Bi : blank TAB) by (repeat (constructor; [cbn; tauto|]); constructor).
    destruct (C103_literal_partial 90 TAB x Bi Q B) as (body & _ & _ & _ & E & _). destruct (docstring_body 90 TAB x body Bi (conj Q B) E) as [[Qb _] _].
    replace (print_field f) with (print_field g ++ String lf (format_docstring 90 TAB x)) by (unfold print_field, g; cbn [fd_key fd_type fd_doc]; rewrite Ed, app_nil_r_s, !app_assoc_s; reflexivity).
    unfold stripped. rewrite split_cat. replace (split (print_field g), false) with ((split (print_field g) ++ [])%list, false) by (now rewrite app_nil_r). eapply strip_app; [apply stripped_line; assumption|]. rewrite E. change quotes3 with tq. now apply strip_docstring.
  - replace (print_field f) with (print_field g) by (unfold print_field, g; cbn [fd_key fd_type fd_doc]; now rewrite Ed). now apply stripped_line.
Qed.
Lemma stripped_decl d : readable (without_docs d) -> docs_literal d -> stripped (print_decl d) (print_decl (without_docs d)).
Proof.
  destruct d as [n t|n b fs doc|n sig]; intros (W & N & R) Dl; cbn [without_docs declared] in *.
  - destruct (word_head n W N) as (c & r & -> & Hc). apply stripped_line; [|now apply opens_word]. cbn [print_decl]. apply no_nl_app. split; [now apply word_no_nl|]. apply no_nl_app. split; [reflexivity|now apply ty_no_nl].
  - destruct R as [-> R]. destruct b.
    + destruct (word_head n W N) as (c & r & En & Hc). pose proof (word_no_nl n W) as Nn.
      cbn [print_decl opt_list map app]. apply stripped_join. constructor; [|constructor; [|constructor; [|]]].
      * apply stripped_line; [apply no_nl_app; split; [exact Nn|reflexivity]|]. rewrite En. now apply opens_word.
      * apply stripped_line; [apply no_nl_app; split; [reflexivity|]; apply no_nl_app; split; [reflexivity|]; apply no_nl_app; split; [exact Nn|reflexivity]|]. rewrite tab_opens, En. destruct (startswith tq _) eqn:E; [|reflexivity]. apply startswith_spec in E as (z & E). injection E as -> _. discriminate Hc.
      * apply stripped_line; reflexivity.
      * apply Forall2_app; [|constructor; [apply stripped_line; reflexivity|constructor; [apply stripped_line; reflexivity|constructor]]].
        destruct fs as [|f fs]; [constructor; [apply stripped_line; reflexivity|constructor]|].
        assert (G : forall l, incl l (f :: fs) -> Forall2 stripped (map print_item l) (map print_item (map (fun f => Field (fd_key f) (fd_type f) None) l))).
        { induction l as [|g l IH]; intros I; cbn [map]; constructor; [|apply IH; intros x Hx; apply I; now right].
          change (print_item (Field (fd_key g) (fd_type g) None)) with (print_item g). apply stripped_line; [|reflexivity]. change (print_item g) with (print_item (Field (fd_key g) (fd_type g) None)). apply item_no_nl. apply (R (Field (fd_key g) (fd_type g) None)). apply in_map_iff. exists g. split; [reflexivity|apply I; now left]. }
        apply G. intros x Hx. exact Hx.
    + cbn [print_decl opt_list map app]. apply stripped_join. constructor; [apply stripped_line; [apply no_nl_app; split; [reflexivity|]; apply no_nl_app; split; [now apply word_no_nl|reflexivity]|reflexivity]|].
      destruct fs as [|f fs]; [constructor; [apply stripped_line; reflexivity|constructor]|].
      assert (G : forall l, incl l (f :: fs) -> Forall2 stripped (map print_field l) (map print_field (map (fun f => Field (fd_key f) (fd_type f) None) l))).
      { induction l as [|g l IH]; intros I; cbn [map]; constructor; [|apply IH; intros x Hx; apply I; now right].
        apply stripped_field; [|intros x Hx; apply (Dl (fd_key g) x); exists n, (f :: fs), None, g; split; [reflexivity|]; split; [apply I; now left|auto]]. apply (R (Field (fd_key g) (fd_type g) None)). apply in_map_iff. exists g. split; [reflexivity|apply I; now left]. }
      apply G. intros x Hx. exact Hx.
  - replace (print_decl (DProto n sig)) with (("class " ++ n ++ "(Protocol):") ++ String lf (TAB ++ "def __call__" ++ sig ++ ": ...")) by (cbn [print_decl]; now rewrite !app_assoc_s).
    apply stripped_cat; apply stripped_line; try reflexivity; repeat (apply no_nl_app; split); try reflexivity; [now apply word_no_nl|exact R].
Qed.

(** ** Imports *)
Local Notation quote_free := (no_char (chr 34)).
Lemma free_app a b : quote_free (a ++ b) <-> quote_free a /\ quote_free b.
Proof. unfold no_char. rewrite str_forall_app. apply andb_true_iff. Qed.
Lemma offers_free p n : In n (offers p) -> quote_free p /\ quote_free n.
Proof.
  assert (G : forall l, forallb (fun x => str_forall (fun d => negb (Ascii.eqb (chr 34) d)) x) l = true -> In n l -> quote_free n).
  { intros l A I. rewrite forallb_forall in A. specialize (A n I). exact A. }
  unfold offers. intros H. repeat match type of H with In _ (if String.eqb p ?q then _ else _) => destruct (String.eqb_spec p q) as [->|]; [split; [reflexivity|]; eapply G; [|exact H]; vm_compute; reflexivity|] end. destruct H.
Qed.
Lemma joined_free sep l s : (forall x, In x l -> quote_free x) -> quote_free sep -> Joined sep l s -> quote_free s.
Proof.
  intros F N J. induction J as [|x|x y l s J IH]; [reflexivity|apply F; now left|]. apply free_app. split; [apply F; now left|]. apply free_app. split; auto. apply IH. intros z Hz. apply F. now right.
Qed.
Lemma statement_free x : importable x -> quote_free (s_text x).
Proof.
  destruct x as [[p ns] st]. unfold importable, s_text, s_module, s_names. cbn [fst snd]. intros [St R].
  destruct St as [| | |p ns s W Ne J|p ns s W Ne J]; try reflexivity;
    (destruct R as [R|(_ & _ & R)]; [exfalso; unfold module_import in R; cbn [In] in R; destruct R as [R|[R|[R|[]]]]; discriminate R|]);
    assert (P : quote_free p) by (destruct ns as [|n ns]; [congruence|]; exact (proj1 (offers_free p n (R n (or_introl eq_refl)))));
    assert (Q : quote_free s) by (eapply joined_free; [| |exact J]; [intros n Hn; exact (proj2 (offers_free p n (R n Hn)))|reflexivity]);
    repeat (apply free_app; split); try reflexivity; auto.
Qed.
Lemma block_free stmts block : import_block stmts block -> quote_free block.
Proof.
  intros [F J]. rewrite Forall_forall in F. assert (G : forall x, In x (map s_text stmts) -> quote_free x) by (intros x Hx; apply in_map_iff in Hx as (st & <- & Hst); now apply statement_free, F).
  destruct J as [J|(h & t & E & J)]; (eapply joined_free; [| |exact J]; [|reflexivity]); [exact G|]. rewrite E in G. intros x [<-|Hx]; [apply free_app; split; [apply G; now left|reflexivity]|apply G; now right].
Qed.
Lemma stripped_free x : quote_free x -> stripped x x.
Proof.
  intros Q. unfold stripped. apply strip_plain. apply (split_forall _ lf) in Q. eapply Forall_impl; [|exact Q]. intros l H. cbv beta in H. destruct (opens l) eqn:E; [|reflexivity]. apply startswith_spec in E as (z & ->). rewrite !str_forall_app in H. apply andb_true_iff in H as [H _]. discriminate H.
Qed.

(** ** Layout *)
Lemma class_docs d : is_class (print_decl d) <-> is_class (print_decl (without_docs d)).
Proof.
  destruct d as [n t|n b fs doc|n sig]; try tauto. cbn [without_docs]. destruct b.
  - replace (print_decl (DTyped n true (map (fun f => Field (fd_key f) (fd_type f) None) fs) doc)) with (print_decl (DTyped n true fs doc)); [tauto|].
    cbn [print_decl]. destruct fs as [|f fs]; [reflexivity|]. rewrite map_map. reflexivity.
  - assert (G : forall fs', is_class (print_decl (DTyped n false fs' doc))); [|split; intros _; apply G]. intros fs'. cbn [print_decl opt_list]. 
    match goal with |- is_class (join nl (?a :: ?m)) => destruct m as [|y l] end; [|rewrite join_cons by discriminate]; eexists; reflexivity.
Qed.
Definition kept (r r' : string) : Prop := forall x x', stripped x x' -> stripped (x ++ r) (x' ++ r').
Lemma kept_line r r' : kept r r' -> kept (String lf r) (String lf r').
Proof. intros K y y' Y. apply stripped_cat; [exact Y|]. now apply (K "" ""). Qed.
Lemma kept_lines k x x' r r' : k = 1 \/ k = 2 -> stripped x x' -> kept r r' -> kept (empty_lines k ++ x ++ r) (empty_lines k ++ x' ++ r').
Proof.
  intros Hk A B. assert (G : kept (String lf (x ++ r)) (String lf (x' ++ r'))) by (intros y y' Y; apply stripped_cat; [exact Y|now apply B]).
  destruct Hk as [-> | ->]; [apply kept_line in G|do 2 apply kept_line in G]; exact G.
Qed.
Lemma following_docs ds : Forall (fun d => readable (without_docs d) /\ docs_literal d) ds -> forall r, Following (map print_decl ds) r ->
  exists r', Following (map print_decl (map without_docs ds)) r' /\ kept r r'.
Proof.
  induction 1 as [|d ds [R L] F IH]; intros r H; cbn [map] in *; inversion H as [|x l r0 Hc H0|x l r0 Hc H0]; subst.
  - exists "". split; [constructor|]. intros x x' X. now rewrite !app_nil_r_s.
  - destruct (IH _ H0) as (r' & F' & K). eexists. split; [apply fol_class; [exact (proj1 (class_docs d) Hc)|exact F']|]. apply kept_lines; [tauto|now apply stripped_decl|exact K].
  - destruct (IH _ H0) as (r' & F' & K). eexists. split; [apply fol_other; [intros X; exact (Hc (proj2 (class_docs d) X))|exact F']|]. apply kept_lines; [tauto|now apply stripped_decl|exact K].
Qed.
Lemma layout_docs block ds text : quote_free block -> Forall (fun d => readable (without_docs d) /\ docs_literal d) ds -> Layout (block :: map print_decl ds) text ->
  exists text', Layout (block :: map print_decl (map without_docs ds)) text' /\ stripped text text'.
Proof.
  intros Q F H. apply stripped_free in Q. destruct ds as [|d ds]; cbn [map] in *.
  - apply layout_one in H. exists (block ++ end_of_line). split; [constructor|]. subst text. apply (stripped_cat block "" block ""); [exact Q|reflexivity].
  - apply layout_inv in H as (r & H & ->). inversion F as [|? ? [R L] F']; subst. destruct (following_docs ds F' r H) as (r' & H' & K). eexists. split; [apply lay_more; exact H'|]. apply kept_lines; [tauto|now apply stripped_decl|exact K|exact Q].
Qed.

(** C66: two readings of a class file declare the same, up to docstrings. *)
Theorem C66_one_reading_docs : forall text stmts stmts' ds ds', ReadsDocs text stmts ds -> ReadsDocs text stmts' ds' -> map without_docs ds = map without_docs ds'.
Proof.
  intros text stmts stmts' ds ds' (block & B & F & H) (block' & B' & F' & H').
  destruct (layout_docs block ds text (block_free _ _ B) F H) as (t & L & T). destruct (layout_docs block' ds' text (block_free _ _ B') F' H') as (t' & L' & T').
  assert (E : t = t'). { unfold stripped in *. rewrite T in T'. injection T' as E. rewrite <- (join_split lf t), <- (join_split lf t'). now rewrite E. } subst t'.
  apply (C66_one_reading t stmts stmts').
  - exists block. split; [exact B|]. split; [|exact L]. apply Forall_map. eapply Forall_impl; [|exact F]. cbn. tauto.
  - exists block'. split; [exact B'|]. split; [|exact L']. apply Forall_map. eapply Forall_impl; [|exact F']. cbn. tauto.
Qed.
Print Assumptions C66_one_reading_docs.

(** ** The texts of data with documentation entries *)
Lemma accepts_undocs ds t v : accepts ds t v -> accepts (map without_docs ds) t v.
Proof.
  assert (Nm : map declared (map without_docs ds) = map declared ds) by (rewrite map_map; apply map_ext; intros d; apply declared_without).
  assert (W : forall d, In d ds -> In (without_docs d) (map without_docs ds)) by (intros d; apply in_map).
  revert t v. fix IH 3. intros t v H. destruct H.
  - apply acc_class; auto. now rewrite Nm.
  - apply acc_forward; auto. now rewrite Nm.
  - apply (acc_alias _ n t); [exact (W _ H)|auto].
  - apply (acc_typed _ n functional (map (fun f => Field (fd_key f) (fd_type f) None) fs) doc); [exact (W _ H)| |].
    + intros k x Hx. destruct (H0 k x Hx) as (f & Hf & Hk & Ha). exists (Field (fd_key f) (fd_type f) None). split; [apply in_map_iff; eauto|]. auto.
    + intros f Hf Hr. apply in_map_iff in Hf as (f0 & <- & Hf0). exact (H1 f0 Hf0 Hr).
  - eapply acc_proto; [exact (W _ H)|eauto|eauto].
  - apply acc_callable.
  - eapply acc_callable_args; eauto.
  - apply acc_module.
  - apply acc_textio.
  - apply acc_array.
  - apply acc_type. now rewrite Nm.
  - apply acc_type_forward. now rewrite Nm.
  - apply acc_none.
  - apply acc_optional; auto.
  - eapply acc_union; eauto.
  - apply acc_seq; auto.
  - apply acc_tuple_any; auto.
  - apply acc_tuple. induction H; constructor; auto.
  - apply acc_map; auto. intros key x Hx. destruct (H0 key x Hx). auto.
Qed.
Lemma accepts_same_docs ds ds' t v : map without_docs ds = map without_docs ds' -> accepts ds t v -> accepts ds' t v.
Proof.
  intros E A. apply (accepts_docs ds' (map without_docs ds')).
  - intros d' Hd. apply in_map_iff in Hd as (d & <- & Hd). eauto.
  - intros n Hn. rewrite map_map. apply in_map_iff in Hn as (d & <- & Hd). apply in_map_iff. exists d. split; [apply declared_without|exact Hd].
  - rewrite <- E. now apply accepts_undocs.
Qed.

(** C97: where no documentation contains triple quotes or backslashes, the text of the class file is a block of imports and declarations with docstrings that are literals, and in every
    reading of the text the class accepts the data without documentation. *)
Theorem C97_every_reading : forall s ord v w c, valid s -> set_like ord -> blind ord -> documented s v -> strips v w -> ~ doc_key (KStr (s_key_doc s)) -> describable s c w ->
  (forall mk ty d k x, sub (VMap mk ty d) v -> note_of d k x -> without_quotes3 x /\ without_backslash x) ->
  exists text, class_text s ord v c = Val text /\ (exists stmts ds, ReadsDocs text stmts ds) /\
    forall stmts ds, ReadsDocs text stmts ds -> accepts ds (TName c) w.
Proof.
  intros s ord v w c Hs Ho B D St Nk De Li. destruct (describes_decls s ord v w c Hs Ho B D St Nk De) as (t & H & Dc & Re & Ag & Res & Acc). cbv zeta in *.
  destruct (formatted s t) as (block & F). unfold class_text. rewrite H. destruct (to_string s t true) as [text|] eqn:E.
  - destruct (C66_layout s t true text E) as (texts' & D' & _ & block' & F' & Lay). rewrite Dc in D'. injection D' as <-. rewrite F in F'. injection F' as <-. destruct (block_describes s t block F) as (stmts & Bl & Br).
    exists text. split; [reflexivity|].
    assert (R : ReadsDocs text stmts (decls s t)).
    { exists block. split; [exact Bl|]. split; [|exact Lay]. rewrite Forall_forall in *. intros d Hd. split; [auto|]. intros k x Hx. unfold decls in Hd. apply in_map_iff in Hd as (m & <- & Hm). apply firsts_incl in Hm. apply collect_nodes in Hm as [Hm _].
      destruct (C100_only s ord v c t m k x Ho H Hm Hx) as (mk & ty & d & Hs' & Hn). eauto. }
    split; [eauto|]. intros stmts' ds' R'. exact (accepts_same_docs _ _ _ _ (C66_one_reading_docs _ _ _ _ _ R R') Acc).
  - exfalso. destruct (root_perm s ord v c t H) as (_ & Ct & _). unfold to_string in E. destruct (get_strs s t true) eqn:G; [discriminate E|]. apply get_strs_none in G as (m & Hm & Fm); [|intros Z; rewrite Z in Ct; destruct Ct].
    unfold declarations in Dc. assert (Z : existsb function_fails (collect s t) = true) by (apply existsb_exists; eauto). rewrite Z in Dc. discriminate Dc.
Qed.
Print Assumptions C97_every_reading.

(** The order of [C97_example] with comments at two depths and in two rows of a list. *)
Lemma literal_text x : contains tq x = false -> str_forall (fun c => negb (Ascii.eqb (chr 92) c)) x = true -> without_quotes3 x /\ without_backslash x.
Proof.
  intros A B. split.
  - intros a b E. assert (contains tq x = true) by (apply contains_spec; eauto). congruence.
  - unfold without_backslash. clear A. induction x as [|c x IH]; cbn [chars str_forall] in *; [constructor|]. apply andb_true_iff in B as [B1 B2]. constructor; [|auto]. intros E. destruct (Ascii.eqb_spec (chr 92) c) as [Q|N]; [discriminate B1|]. apply N. rewrite <- (ascii_nat_embedding c). unfold backslash, code in E. rewrite E. reflexivity.
Qed.
Example C97_every_reading_example : exists text, class_text default_strategies as_inserted order_commented "Order" = Val text /\ (exists stmts ds, ReadsDocs text stmts ds) /\
  (forall stmts ds, ReadsDocs text stmts ds -> accepts ds (TName "Order") order) /\ contains "Where to." text = true.
Proof.
  assert (D : documented default_strategies order_commented) by (apply docsb_spec; vm_compute; reflexivity).
  assert (W : strips order_commented order) by (replace order with (undoc order_commented) by (vm_compute; reflexivity); apply undoc_strips).
  assert (K : ~ doc_key (KStr (s_key_doc default_strategies))) by (intros F; apply hidden_doc in F; vm_compute in F; discriminate).
  assert (L : forall mk ty d k x, sub (VMap mk ty d) order_commented -> note_of d k x -> without_quotes3 x /\ without_backslash x).
  { assert (G : forallb (fun y => match y with VMap _ _ d => forallb (fun e => match snd e with VStr x => negb (contains tq x) && str_forall (fun c => negb (Ascii.eqb (chr 92) c)) x | _ => true end) d | _ => true end) (subs order_commented) = true) by (vm_compute; reflexivity).
    intros mk ty d k x Hd Hn. rewrite forallb_forall in G. specialize (G _ (sub_subs _ _ Hd)). cbn beta iota in G. rewrite forallb_forall in G. specialize (G _ Hn). cbn [snd] in G. apply andb_true_iff in G as [A B]. apply literal_text; [now apply negb_true_iff|exact B]. }
  destruct (C97_every_reading default_strategies as_inserted order_commented order "Order" default_valid as_inserted_set_like as_inserted_blind D W K order_describable L) as (text & A & B & C).
  exists text. split; [exact A|]. split; [exact B|]. split; [exact C|].
  assert (E : match class_text default_strategies as_inserted order_commented "Order" with Val x => contains "Where to." x | _ => false end = true) by (vm_compute; reflexivity). now rewrite A in E.
Qed.
