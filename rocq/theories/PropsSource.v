(** C92: the return type of functions without a return annotation. *)
From Coq Require Import Ascii String List Bool Arith Lia.
From Verif Require Import PropsEmit DeclarationFacts PyStr PyStrFacts Exc Ast Bodies SpecBodies BodiesFacts Values Tree Build Emit TypedFacts Strategies Samples SpecNames NamesFacts Source SpecSource SourceFacts PropsExact.
Import ListNotations Bodies.
Local Open Scope string_scope.
Local Open Scope nat_scope.

(** ** The exact answer *)
Lemma answer_tree source parse text h root tree : source = Val text -> parse (dedent text) = Val (h, root) -> shows h tree (FItem (INode root)) ->
  forall fuel, weight tree < fuel -> exists b, answer source parse fuel = Some b /\ (b = true <-> mentions_return tree).
Proof.
  intros -> P Sh fuel L. destruct (any_return_spec h fuel [root] [tree]) as (b & E & B).
  - constructor; [exact Sh|constructor].
  - cbn. lia.
  - exists b. split; [unfold answer, has_return; cbn [andthen]; rewrite P, E; reflexivity|]. rewrite B. split; [intros (t & [<-|[]] & R); auto|]. intros R. exists tree. cbn. auto.
Qed.
(** The hint is [Any] exactly if the text of the function has a [return] somewhere; functions whose text is not accepted by the
    parser get [None]; without a text there is no hint. *)
Theorem C92_all_functions : forall s ord source parse ty sig k n, ~ has_arrow sig ->
  (forall e fuel t, source = Raise e -> from_data s ord (VFun (inspected source parse ty false (Some (sig, k)) fuel)) n = Ok t -> declarations s t = None) /\
  (forall text e fuel t, source = Val text -> parse (dedent text) = Raise e ->
     from_data s ord (VFun (inspected source parse ty false (Some (sig, k)) fuel)) n = Ok t -> declarations s t = Some [protocol n sig " -> None"]) /\
  (forall text h root tree, source = Val text -> parse (dedent text) = Val (h, root) -> shows h tree (FItem (INode root)) ->
     exists least, forall fuel t, least <= fuel -> from_data s ord (VFun (inspected source parse ty false (Some (sig, k)) fuel)) n = Ok t ->
     (mentions_return tree -> declarations s t = Some [protocol n sig " -> Any"]) /\ (~ mentions_return tree -> declarations s t = Some [protocol n sig " -> None"])).
Proof.
  intros s ord source parse ty sig k n A.
  assert (D : forall fuel t, from_data s ord (VFun (inspected source parse ty false (Some (sig, k)) fuel)) n = Ok t ->
    declarations s t = match answer source parse fuel with Some true => Some [protocol n sig " -> Any"] | Some false => Some [protocol n sig " -> None"] | None => None end).
  { intros fuel t H. destruct (C35_all_functions _ _ _ _ _ H) as [_ C]. destruct (C sig k eq_refl) as (_ & _ & C'). now apply C'. }
  split; [|split].
  - intros e fuel t -> H. now rewrite (D _ _ H).
  - intros text e fuel t -> P H. rewrite (D _ _ H). unfold answer, has_return. cbn [andthen]. now rewrite P.
  - intros text h root tree E P Sh. exists (S (weight tree)). intros fuel t L H. rewrite (D _ _ H). destruct (answer_tree _ _ _ _ _ _ E P Sh fuel) as (b & -> & B); [lia|].
    split; intros M; [apply B in M; now subst b|]. destruct b; auto. exfalso. apply M. now apply B.
Qed.
Print Assumptions C92_all_functions.

(** ** The claim: [Any] for functions that return a value, [None] for the others *)
Definition returned (tree : ast) : Prop := forall fs, part (ANode "Return" fs) tree -> exists body, defines tree body /\ own_return fs body.
Lemma inside_part x t : inside x t -> part x t.
Proof. induction 1; [constructor|econstructor; eauto|econstructor; eauto]. Qed.
(** It holds if every [return] of the text belongs to the function itself and has a value. *)
Theorem C92_value_partial : forall s ord source parse ty sig k n text h root tree, ~ has_arrow sig ->
  source = Val text -> parse (dedent text) = Val (h, root) -> shows h tree (FItem (INode root)) -> returned tree ->
  exists least, forall fuel t, least <= fuel -> from_data s ord (VFun (inspected source parse ty false (Some (sig, k)) fuel)) n = Ok t ->
    (returns_value tree -> declarations s t = Some [protocol n sig " -> Any"]) /\ (~ returns_value tree -> declarations s t = Some [protocol n sig " -> None"]).
Proof.
  intros s ord source parse ty sig k n text h root tree A E P Sh R. destruct (C92_all_functions s ord source parse ty sig k n A) as (_ & _ & C).
  destruct (C text h root tree E P Sh) as (least & L). exists least. intros fuel t Hl H. destruct (L fuel t Hl H) as [Y N]. split.
  - intros (body & fs & (c & gs & tail & -> & Hc & Hb) & (I & _)). apply Y. exists fs. apply inside_part in I. eapply part_node; [left; reflexivity|].
    eapply part_list; [left; reflexivity|]. eapply part_node; eauto.
  - intros V. apply N. intros (fs & Q). destruct (R fs Q) as (body & Df & Ow). apply V. exists body, fs. auto.
Qed.
Print Assumptions C92_value_partial.

(** Heaps for the texts of three functions. *)
Definition const (t v : string) : field := FItem (IConst t v).
Definition module_of (cls : string) (body : list item) (rest : list node) : heap :=
  (Node "Module" [("body", FList [INode 1])] :: Node cls [("name", const "str" "f"); ("body", FList body)] :: rest)%list.
Definition bare_return : heap := module_of "FunctionDef" [INode 2] [Node "Return" [("value", const "NoneType" "None")]].
Definition inner_return : heap := module_of "FunctionDef" [INode 2]
  [Node "FunctionDef" [("name", const "str" "g"); ("body", FList [INode 3])]; Node "Return" [("value", FItem (INode 4))]; Node "Constant" [("value", const "int" "1")]].
Definition own_one : heap := module_of "FunctionDef" [INode 2] [Node "Return" [("value", FItem (INode 3))]; Node "Constant" [("value", const "int" "1")]].
Definition bare_tree : ast := ANode "Module" [("body", AList [ANode "FunctionDef" [("name", AConst "str" "f"); ("body", AList [ANode "Return" [("value", AConst "NoneType" "None")]])]])].
Definition inner_tree : ast := ANode "Module" [("body", AList [ANode "FunctionDef" [("name", AConst "str" "f"); ("body", AList
  [ANode "FunctionDef" [("name", AConst "str" "g"); ("body", AList [ANode "Return" [("value", ANode "Constant" [("value", AConst "int" "1")])]])]])]])].
Definition own_tree : ast := ANode "Module" [("body", AList [ANode "FunctionDef" [("name", AConst "str" "f"); ("body", AList
  [ANode "Return" [("value", ANode "Constant" [("value", AConst "int" "1")])]])]])].
Definition generator_tree : ast := ANode "Module" [("body", AList [ANode "FunctionDef" [("name", AConst "str" "f"); ("body", AList [ANode "Expr" [("value", ANode "Yield" [("value", AConst "NoneType" "None")])]])]])].
Definition generator : heap := module_of "FunctionDef" [INode 2] [Node "Expr" [("value", FItem (INode 3))]; Node "Yield" [("value", const "NoneType" "None")]].
Ltac show := repeat first [progress cbn | match goal with |- exists _, _ => eexists; split; [reflexivity|] end | split | reflexivity | exact I].
Lemma bare_shown : shows bare_return bare_tree (FItem (INode 0)). Proof. show. Qed.
Lemma inner_shown : shows inner_return inner_tree (FItem (INode 0)). Proof. show. Qed.
Lemma own_shown : shows own_one own_tree (FItem (INode 0)). Proof. show. Qed.
Lemma generator_shown : shows generator generator_tree (FItem (INode 0)). Proof. show. Qed.

Lemma bare_no_value : ~ returns_value bare_tree.
Proof.
  intros (body & fs & (c & gs & tail & E & Hc & Hb) & (I & v & Hv & Nv)). unfold bare_tree in E. injection E as <- <- <-. cbn in Hb. destruct Hb as [Hb|[Hb|[]]]; [discriminate|]. injection Hb as <-.
  inversion I as [|? t l Ht It|]; subst. destruct Ht as [<-|[]]. inversion It as [|?|? k t c' fs' Nc Hk It']; subst.
  - destruct Hv as [Hv|[]]. injection Hv as <-. congruence.
  - destruct Hk as [Hk|[]]. injection Hk as <- <-. inversion It'.
Qed.
Lemma inner_no_value : ~ returns_value inner_tree.
Proof.
  intros (body & fs & (c & gs & tail & E & Hc & Hb) & (I & v & Hv & Nv)). unfold inner_tree in E. injection E as <- <- <-. cbn in Hb. destruct Hb as [Hb|[Hb|[]]]; [discriminate|]. injection Hb as <-.
  inversion I as [|? t l Ht It|]; subst. destruct Ht as [<-|[]]. inversion It as [|?|? k t c' fs' Nc Hk It']; subst. apply Nc. left. reflexivity.
Qed.

(** The claim is false: a [return] without a value and one of an inner function count, and a generator, which returns an iterator, has none. *)
Theorem C92_value_refuted : exists parse h h', parse "def f(): ..." = Val (h, 0) /\ parse "def g(): ..." = Val (h', 0) /\
  shows h bare_tree (FItem (INode 0)) /\ shows h' inner_tree (FItem (INode 0)) /\ ~ returns_value bare_tree /\ ~ returns_value inner_tree /\
  forall fuel, 9 <= fuel -> answer (Val "def f(): ...") parse fuel = Some true /\ answer (Val "def g(): ...") parse fuel = Some true.
Proof.
  exists (fun s => if String.eqb s "def f(): ..." then Val (bare_return, 0) else Val (inner_return, 0)), bare_return, inner_return.
  split; [reflexivity|]. split; [reflexivity|]. split; [apply bare_shown|]. split; [apply inner_shown|]. split; [apply bare_no_value|]. split; [apply inner_no_value|].
  intros fuel L. do 9 (destruct fuel as [|fuel]; [lia|]). split; reflexivity.
Qed.
Print Assumptions C92_value_refuted.
Theorem C92_generator_refuted : exists parse h, parse "def f(): yield" = Val (h, 0) /\ shows h generator_tree (FItem (INode 0)) /\
  forall fuel, 9 <= fuel -> answer (Val "def f(): yield") parse fuel = Some false.
Proof.
  exists (fun _ => Val (generator, 0)), generator. split; [reflexivity|]. split; [apply generator_shown|]. intros fuel L. do 9 (destruct fuel as [|fuel]; [lia|]). reflexivity.
Qed.
Print Assumptions C92_generator_refuted.
Lemma own_returned : returned own_tree.
Proof.
  intros fs P. assert (E : fs = [("value", ANode "Constant" [("value", AConst "int" "1")])]).
  { unfold own_tree in P. inversion P as [|?|? k t c gs Hk P1]; subst. destruct Hk as [Hk|[]]. injection Hk as <- <-. inversion P1 as [|? t l Ht P2|]; subst. destruct Ht as [<-|[]].
    inversion P2 as [|?|? k t c gs Hk P3]; subst. destruct Hk as [Hk|[Hk|[]]]; injection Hk as <- <-; [inversion P3|]. inversion P3 as [|? t l Ht P4|]; subst. destruct Ht as [<-|[]].
    inversion P4 as [|?|? k t c gs Hk P5]; subst; auto. destruct Hk as [Hk|[]]. injection Hk as <- <-. inversion P5 as [|?|? k t c gs Hk P6]; subst. destruct Hk as [Hk|[]]. injection Hk as <- <-. inversion P6. }
  subst fs. eexists. split; [eexists "FunctionDef", _, []; split; [reflexivity|]; split; [now left|right; left; reflexivity]|]. split.
  - econstructor; [left; reflexivity|constructor].
  - eexists. split; [left; reflexivity|discriminate].
Qed.
Example C92_example : exists t, shows own_one own_tree (FItem (INode 0)) /\ returned own_tree /\ returns_value own_tree /\
  from_data default_strategies as_inserted (VFun (inspected (Val "  def f(): return 1") (fun s => if String.eqb s "def f(): return 1" then Val (own_one, 0) else Raise ValueError) ty_fun false (Some ("()", 0)) 9)) "F" = Ok t /\
  declarations default_strategies t = Some [protocol "F" "()" " -> Any"].
Proof.
  eexists. split; [apply own_shown|]. split; [apply own_returned|]. split; [|split; [vm_compute; reflexivity|vm_compute; reflexivity]].
  destruct (own_returned [("value", ANode "Constant" [("value", AConst "int" "1")])]) as (body & D & O); [|exists body; eauto].
  eapply part_node; [left; reflexivity|]. eapply part_list; [left; reflexivity|]. eapply part_node; [right; left; reflexivity|]. eapply part_list; [left; reflexivity|]. constructor.
Qed.

(** ** The text that is parsed *)
Theorem C92_dedent : forall ls, ls <> [] -> Forall (fun l => ~ In (ascii_of_nat 10) (chars l)) ls ->
  exists out, Dedented ls out /\ dedent (join (String (ascii_of_nat 10) "") ls) = join (String (ascii_of_nat 10) "") out.
Proof.
  intros ls N F. exists (dedented ls). split; [apply dedented_spec|]. rewrite dedent_lines. unfold nl, chr. rewrite split_join; auto.
  eapply Forall_impl; [|exact F]. intros l H. unfold no_char. rewrite Forall_chars, Forall_forall. intros x Hx. apply negb_true_iff, Ascii.eqb_neq. intros <-. now apply H.
Qed.
Print Assumptions C92_dedent.
(** The specification determines the lines. *)
Theorem C92_dedent_determined : forall ls a b, Dedented ls a -> Dedented ls b -> a = b.
Proof.
  assert (G : forall ls m m' a b, Forall2 (fun l o => empty_line l /\ o = "" \/ ~ empty_line l /\ l = m ++ o) ls a ->
     Forall2 (fun l o => empty_line l /\ o = "" \/ ~ empty_line l /\ l = m' ++ o) ls b -> (exists l, In l ls /\ ~ empty_line l) ->
     Forall blank_char (chars m') ->
     (forall c, blank_char c -> exists o, In o a /\ o <> "" /\ forall r, o <> String c r) -> prefix_of m' m).
  { intros ls m m' a b A B (l & Hl & Nl) Bm M.
    assert (X : forall p l, Forall2 (fun l o => empty_line l /\ o = "" \/ ~ empty_line l /\ l = p ++ o) ls l -> forall x, In x ls -> ~ empty_line x -> prefix_of p x).
    { intros p l0 H x Hx Nx. clear -H Hx Nx. induction H as [|y o ls l0 R _ IH]; [destruct Hx|]. destruct Hx as [->|Hx]; auto. destruct R as [[E _]|[_ ->]]; [contradiction|]. exists o. auto. }
    destruct (X m a A l Hl Nl) as (r & E). destruct (X m' b B l Hl Nl) as (r' & E'). rewrite E in E'.
    assert (Cmp : prefix_of m' m \/ exists c t, m' = m ++ String c t).
    { clear -E'. revert m' r' E'. induction m as [|x m IH]; intros [|y m'] r' E'; [left; apply prefix_refl|right; exists y, m'; auto|left; eexists; reflexivity|].
      cbn in E'. injection E' as -> E'. destruct (IH _ _ E') as [(u & ->)|(c & t & ->)]; [left; exists u; auto|right; exists c, t; auto]. }
    destruct Cmp as [?|(c & t & Em)]; auto. exfalso. destruct (M c) as (o & Ho & No & Nc).
    { rewrite Em, chars_app in Bm. apply Forall_app in Bm as [_ Bm]. cbn in Bm. now inversion Bm. }
    assert (Y : exists x, In x ls /\ ~ empty_line x /\ x = m ++ o).
    { clear -A Ho No. induction A as [|y o' ls a R _ IH]; [destruct Ho|]. destruct Ho as [->|Ho]; [|destruct (IH Ho) as (x & ? & ?); exists x; split; [now right|auto]].
      destruct R as [[_ ->]|[N ->]]; [congruence|]. eexists. split; [left; reflexivity|auto]. }
    destruct Y as (x & Hx & Nx & ->). destruct (X m' b B _ Hx Nx) as (z & Ez). rewrite Em, app_assoc_s in Ez. apply append_cut in Ez; auto. now apply (Nc (t ++ z)). }
  intros ls a b (m & Bm & A & Ma) (m' & Bm' & B & Mb).
  assert (E : (forall l, In l ls -> empty_line l) \/ m = m').
  { destruct (Exists_dec (fun l => ~ empty_line l) ls) as [H|H].
    - intros l. destruct (str_forall is_blank l) eqn:Bl; [right; intros N; apply N; now apply blank_line|left; rewrite <- blank_line; congruence].
    - right. apply Exists_exists in H as (l & Hl & Nl). destruct Ma as [Ma|Ma]; [exfalso; auto|]. destruct Mb as [Mb|Mb]; [exfalso; auto|].
      apply prefix_antisym; eapply G; eauto.
    - left. intros l Hl. destruct (str_forall is_blank l) eqn:Bl; [now apply blank_line|]. exfalso. apply H. apply Exists_exists. exists l. split; auto. rewrite <- blank_line. congruence. }
  clear Ma Mb G. revert b B. induction A as [|l o ls a R A IH]; intros b B; inversion B as [|? o' ? b' R' B']; subst; auto. f_equal.
  - destruct E as [E|<-].
    + destruct R as [[_ ->]|[N _]]; [|exfalso; apply N, E; now left]. destruct R' as [[_ ->]|[N _]]; [auto|exfalso; apply N, E; now left].
    + destruct R as [[? ->]|[N ->]], R' as [[? ->]|[? R']]; try contradiction; auto. eapply append_cut; eauto.
  - apply IH; auto. destruct E as [E|E]; [left; intros x Hx; apply E; now right|now right].
Qed.
Print Assumptions C92_dedent_determined.
(** A function inside of a class or another function whose text has a line that begins in the first column (a string over several lines) is
    not parsed, so it gets [None] whatever it returns. *)
Theorem C92_first_column : forall parse first rest l c c' r r' fuel,
  (forall t b, blank_char b -> exists e, parse (String b t) = Raise e) ->
  Forall (fun l => ~ In (ascii_of_nat 10) (chars l)) (first :: rest) ->
  first = String c r -> blank_char c -> ~ empty_line first -> In l rest -> l = String c' r' -> ~ blank_char c' ->
  answer (Val (join (String (ascii_of_nat 10) "") (first :: rest))) parse fuel = Some false.
Proof.
  intros parse first rest l c c' r r' fuel P F Ef Bc Nf Hl El Nc. destruct (C92_dedent (first :: rest)) as (out & (m & Bm & A & _) & E); [discriminate|auto|].
  assert (Em : m = "").
  { assert (X : prefix_of m l).
    { inversion A as [|? o ? out' R A']; subst. clear -A' Hl Nc. induction A' as [|y o' ls a R _ IH]; [destruct Hl|]. destruct Hl as [->|Hl]; auto.
      destruct R as [[X _]|[_ ->]]; [exfalso; inversion X; contradiction|eexists; reflexivity]. }
    destruct X as (z & Ez). destruct m as [|x m]; auto. exfalso. rewrite El in Ez. cbn in Ez. injection Ez as -> _. apply Nc. now inversion Bm. }
  subst m. inversion A as [|? o ? out' R A']; subst. destruct R as [[? _]|[_ Eo]]; [contradiction|]. cbn in Eo. subst o.
  unfold answer, has_return. cbn [andthen]. rewrite E. assert (Hd : exists t, join (String (ascii_of_nat 10) "") (String c r :: out') = String c t).
  { destruct out'; cbn [join]; [eauto|]. cbn. eauto. }
  destruct Hd as (t & ->). destruct (P t c Bc) as (e & ->). reflexivity.
Qed.
Print Assumptions C92_first_column.
Example C92_first_column_example : exists parse : string -> exc (heap * nat), (forall t b, blank_char b -> exists e, parse (String b t) = Raise e) /\
  answer (Val (join (String (ascii_of_nat 10) "") ["    def f(self):"; "        text = 'line \"; "second'"; "        return text"])) parse 9 = Some false.
Proof.
  exists (fun s => match s with String c _ => if is_blank c then Raise ValueError else Val (own_one, 0) | "" => Val (own_one, 0) end). split.
  - intros t b B. apply is_blank_char in B. rewrite B. eauto.
  - vm_compute. reflexivity.
Qed.
