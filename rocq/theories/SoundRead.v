(** Readable declarations are determined by their text. *)
From Coq Require Import Ascii String List Bool Arith Lia.
From Verif Require Import PyStr PyStrFacts Docstring SpecNames NamesFacts SpecTypes SpecData SpecEmit Values Build BuildFacts EmitFacts SpecSound SoundPrint.
Import ListNotations.
Local Open Scope string_scope.

Lemma app_inj_l (a x y : string) : a ++ x = a ++ y -> x = y.
Proof. induction a as [|c a IH]; cbn [append]; auto. intros E. injection E as E. auto. Qed.

Lemma no_nl_app a b : no_char (chr 10) (a ++ b) <-> no_char (chr 10) a /\ no_char (chr 10) b.
Proof. unfold no_char. rewrite str_forall_app. apply andb_true_iff. Qed.
Lemma name_no_nl n : str_forall name_char n = true -> no_char (chr 10) n.
Proof. apply str_forall_impl. intros c Hc. assert (G : negb (name_char c) || negb (Ascii.eqb (chr 10) c) = true) by by_chars c. now rewrite Hc in G. Qed.
Lemma word_no_nl n : word_like n -> no_char (chr 10) n.
Proof. rewrite word_like_spec. apply str_forall_impl. intros c Hc. assert (G : negb (word_char c) || negb (Ascii.eqb (chr 10) c) = true) by by_chars c. now rewrite Hc in G. Qed.
Lemma quotable_chars k : quotable k -> str_forall (fun c => negb (existsb (Ascii.eqb c) [""""; ascii_of_nat 10]%char)) k = true.
Proof.
  intros H. apply str_forall_In. intros c Hc. apply chars_str_In in Hc. specialize (H c Hc). apply negb_true_iff, not_true_iff_false. intros E. apply H.
  cbn [existsb] in E. rewrite !orb_true_iff in E. destruct E as [E|[E|E]]; try discriminate; apply Ascii.eqb_eq in E; subst c; cbn; auto.
Qed.
Lemma unquoted_no_nl n : unquoted n -> no_char (chr 10) n.
Proof.
  apply str_forall_impl. intros c Hc. assert (G : negb (negb (existsb (Ascii.eqb c) [""""; ascii_of_nat 10]%char)) || negb (Ascii.eqb (chr 10) c) = true) by by_chars c.
  now rewrite Hc in G.
Qed.
Lemma join_no_nl l : Forall (fun t => wf_ty t -> no_char (chr 10) (print_ty t)) l -> Forall wf_ty l -> no_char (chr 10) (join ", " (map print_ty l)).
Proof.
  intros H W. apply str_forall_join; [reflexivity|]. apply Forall_forall. intros x Hx. apply in_map_iff in Hx as (t & <- & Ht). rewrite Forall_forall in H, W. apply H; auto.
Qed.
Lemma ty_no_nl t : wf_ty t -> no_char (chr 10) (print_ty t).
Proof.
  induction t as [n|x|h args IH|args IH|] using ty_ind'; intros W; cbn [print_ty].
  - now apply name_no_nl, W.
  - apply no_nl_app. split; [reflexivity|]. apply no_nl_app. split; [now apply unquoted_no_nl|reflexivity].
  - apply wf_app in W as [[W _] Wa]. apply no_nl_app. split; [now apply name_no_nl|]. apply no_nl_app. split; [reflexivity|]. apply no_nl_app. split; [now apply join_no_nl|reflexivity].
  - apply wf_args in W. apply no_nl_app. split; [reflexivity|]. apply no_nl_app. split; [now apply join_no_nl|reflexivity].
  - reflexivity.
Qed.

Lemma field_ext f f' : fd_key f = fd_key f' -> fd_type f = fd_type f' -> fd_doc f = None -> fd_doc f' = None -> f = f'.
Proof. destruct f, f'. cbn. intros -> -> -> ->. auto. Qed.

Definition class_field (f : field) : Prop := wf_ty (fd_type f) /\ fd_doc f = None /\ word_like (fd_key f).
Definition quoted_field (f : field) : Prop := wf_ty (fd_type f) /\ fd_doc f = None /\ quotable (fd_key f).

Lemma print_field_inj f f' : class_field f -> class_field f' -> print_field f = print_field f' -> f = f'.
Proof.
  intros (A & B & C) (A' & B' & C') E. unfold print_field in E. rewrite B, B' in E. rewrite !app_nil_r_s in E. apply app_inj_l in E.
  apply word_like_spec in C, C'. destruct (split_name word_char _ _ (": " ++ print_ty (fd_type f)) (": " ++ print_ty (fd_type f')) C C') as [K T]; auto;
    try (right; do 2 eexists; split; reflexivity).
  apply app_inj_l in T. apply print_ty_inj in T; auto. now apply field_ext.
Qed.
Lemma print_item_inj f f' : quoted_field f -> quoted_field f' -> print_item f = print_item f' -> f = f'.
Proof.
  intros (A & B & C) (A' & B' & C') E. unfold print_item in E. apply app_inj_l, app_inj_l, app_inj_l in E.
  destruct (split_name _ _ _ (dq ++ ": " ++ print_ty (fd_type f) ++ ",") (dq ++ ": " ++ print_ty (fd_type f') ++ ",") (quotable_chars _ C) (quotable_chars _ C')) as [K T]; auto;
    try (right; do 2 eexists; split; reflexivity).
  apply app_inj_l, app_inj_l in T. apply print_ty_prefix in T as [T _]; auto; [now apply field_ext| |]; right; do 2 eexists; (split; [reflexivity|now left]).
Qed.
Lemma field_no_nl f : class_field f -> no_char (chr 10) (print_field f).
Proof.
  intros (A & B & C). unfold print_field. rewrite B, app_nil_r_s. apply no_nl_app. split; [reflexivity|]. apply no_nl_app. split; [now apply word_no_nl|].
  apply no_nl_app. split; [reflexivity|now apply ty_no_nl].
Qed.
Lemma item_no_nl f : quoted_field f -> no_char (chr 10) (print_item f).
Proof.
  intros (A & B & C). unfold print_item. apply no_nl_app. split; [reflexivity|]. apply no_nl_app. split; [reflexivity|]. apply no_nl_app. split; [reflexivity|].
  apply no_nl_app. split; [apply unquoted_no_nl; now apply quotable_chars|]. apply no_nl_app. split; [reflexivity|]. apply no_nl_app. split; [reflexivity|].
  apply no_nl_app. split; [now apply ty_no_nl|reflexivity].
Qed.
Lemma map_inj_in {A B} (g : A -> B) (P : A -> Prop) : (forall x y, P x -> P y -> g x = g y -> x = y) ->
  forall l l', (forall x, In x l -> P x) -> (forall x, In x l' -> P x) -> map g l = map g l' -> l = l'.
Proof.
  intros H. induction l as [|x l IH]; intros [|y l'] Hl Hl' E; try discriminate; auto. cbn [map] in E. injection E as E1 E2.
  f_equal; [apply H; auto; [apply Hl | apply Hl']; now left|]. apply IH; auto; intros z Hz; [apply Hl | apply Hl']; now right.
Qed.

Definition class_lines (fs : list field) : list string := match fs with [] => [TAB ++ "..."] | _ => map print_field fs end.
Definition item_lines (fs : list field) : list string := match fs with [] => [""] | _ => map print_item fs end.
Lemma class_lines_inj fs fs' : (forall f, In f fs -> class_field f) -> (forall f, In f fs' -> class_field f) -> class_lines fs = class_lines fs' -> fs = fs'.
Proof.
  assert (D : forall f, class_field f -> print_field f <> TAB ++ "...").
  { intros f (A & B & C) E. unfold print_field in E. apply app_inj_l in E. apply word_like_spec in C. destruct (fd_key f) as [|c r]; cbn [append] in E; [discriminate|].
    injection E as -> E. cbn [str_forall] in C. apply andb_true_iff in C as [C _]. discriminate. }
  intros H H' E. destruct fs as [|f fs], fs' as [|f' fs']; auto; unfold class_lines in E.
  - exfalso. apply (D f'); [apply H'; now left|]. symmetry. exact (f_equal (hd "") E).
  - exfalso. apply (D f); [apply H; now left|]. exact (f_equal (hd "") E).
  - apply (map_inj_in print_field class_field print_field_inj); auto.
Qed.
Lemma item_lines_inj fs fs' : (forall f, In f fs -> quoted_field f) -> (forall f, In f fs' -> quoted_field f) -> item_lines fs = item_lines fs' -> fs = fs'.
Proof.
  intros H H' E. destruct fs as [|f fs], fs' as [|f' fs']; auto; unfold item_lines in E; try (exfalso; apply (f_equal (hd "")) in E; discriminate E).
  apply (map_inj_in print_item quoted_field print_item_inj); auto.
Qed.

Lemma print_class n fs : print_decl (DTyped n false fs None) = join nl (("class " ++ n ++ "(TypedDict):") :: class_lines fs).
Proof. reflexivity. Qed.
Lemma print_functional n fs : print_decl (DTyped n true fs None) =
  join nl (app ((n ++ " = TypedDict(") :: (TAB ++ dq ++ n ++ dq ++ ",") :: [TAB ++ "{"]) (app (item_lines fs) [TAB ++ "},"; ")"])).
Proof. reflexivity. Qed.

Lemma join_nl_inj l l' : l <> [] -> l' <> [] -> Forall (no_char (chr 10)) l -> Forall (no_char (chr 10)) l' -> join nl l = join nl l' -> l = l'.
Proof. intros N N' H H' E. apply (f_equal (split_char (chr 10))) in E. unfold nl in E. now rewrite !split_join in E. Qed.

(** A readable declaration has one reading. *)
Theorem reading_unique d d' : readable d -> readable d' -> print_decl d = print_decl d' -> d = d'.
Proof.
  intros (W & N & R) (W' & N' & R') E.
  assert (En : declared d = declared d').
  { pose proof (f_equal head_name E) as F. rewrite !print_decl_name in F; auto; (split; [now apply word_like_spec|auto]). }
  assert (Wc : str_forall word_char (declared d) = true) by now apply word_like_spec.
  assert (X : forall x y c1 c2 r1 r2, str_forall word_char x = true -> str_forall word_char y = true -> word_char c1 = false -> word_char c2 = false -> x ++ String c1 r1 = y ++ String c2 r2 -> x = y /\ String c1 r1 = String c2 r2).
  { intros x y c1 c2 r1 r2 H1 H2 H3 H4 H5. apply (split_name word_char); auto; right; eauto. }
  assert (AC : forall n t m fs, str_forall word_char n = true -> print_decl (DAlias n t) <> print_decl (DTyped m false fs None)).
  { intros n t m fs Hn F. rewrite print_class in F. cbn [print_decl] in F. destruct (join_head nl ("class " ++ m ++ "(TypedDict):") (class_lines fs)) as (r & Er). rewrite Er in F.
    rewrite !app_assoc_s in F. destruct (X n "class" ":"%char " "%char (" TypeAlias = " ++ print_ty t) (m ++ "(TypedDict):" ++ r)) as [_ G]; auto. discriminate G. }
  assert (AF : forall n t fs, print_decl (DAlias n t) <> print_decl (DTyped n true fs None)).
  { intros n t fs F. rewrite print_functional in F. cbn [app print_decl] in F. match type of F with _ = join nl (?a :: ?l) => destruct (join_head nl a l) as (r & Er) end. rewrite Er in F.
    rewrite !app_assoc_s in F. apply app_inj_l in F. discriminate F. }
  assert (CF : forall n fs fs', str_forall word_char n = true -> print_decl (DTyped n false fs None) <> print_decl (DTyped n true fs' None)).
  { intros n fs fs' Hn F. rewrite print_class, print_functional in F. cbn [app] in F.
    destruct (join_head nl ("class " ++ n ++ "(TypedDict):") (class_lines fs)) as (r & Er). rewrite Er in F. match type of F with _ = join nl (?a :: ?l) => destruct (join_head nl a l) as (r' & Er') end. rewrite Er' in F.
    rewrite !app_assoc_s in F. destruct (X "class" n " "%char " "%char (n ++ "(TypedDict):" ++ r) ("= TypedDict(" ++ r')) as [<- G]; auto. discriminate G. }
  assert (PA : forall n t m sig, str_forall word_char n = true -> print_decl (DProto m sig) <> print_decl (DAlias n t)).
  { intros n t m sig Hn F. cbn [print_decl] in F. destruct (X "class" n " "%char ":"%char (m ++ "(Protocol):" ++ nl ++ TAB ++ "def __call__" ++ sig ++ ": ...") (" TypeAlias = " ++ print_ty t)) as [_ G]; auto. discriminate G. }
  assert (PC : forall n sig fs, print_decl (DProto n sig) <> print_decl (DTyped n false fs None)).
  { intros n sig fs F. rewrite print_class in F. cbn [print_decl] in F. destruct (join_head nl ("class " ++ n ++ "(TypedDict):") (class_lines fs)) as (r & Er). rewrite Er in F.
    rewrite !app_assoc_s in F. apply app_inj_l, app_inj_l in F. discriminate F. }
  assert (PF : forall n sig fs, str_forall word_char n = true -> print_decl (DProto n sig) <> print_decl (DTyped n true fs None)).
  { intros n sig fs Hn F. rewrite print_functional in F. cbn [app print_decl] in F. match type of F with _ = join nl (?a :: ?l) => destruct (join_head nl a l) as (r' & Er') end. rewrite Er' in F.
    rewrite !app_assoc_s in F. destruct (X "class" n " "%char " "%char (n ++ "(Protocol):" ++ nl ++ TAB ++ "def __call__" ++ sig ++ ": ...") ("= TypedDict(" ++ r')) as [<- G]; auto. discriminate G. }
  destruct d as [n t|n b fs doc|n sig]; [|destruct R as [-> R]|]; (destruct d' as [n' t'|n' b' fs' doc'|n' sig']; [|destruct R' as [-> R']|]); cbn [declared] in *; subst n'.
  - cbn [print_decl] in E. apply app_inj_l, app_inj_l in E. apply print_ty_inj in E; auto. now subst.
  - exfalso. destruct b'; [now apply AF in E|now apply AC in E].
  - exfalso. symmetry in E. now apply PA in E.
  - exfalso. symmetry in E. destruct b; [now apply AF in E|now apply AC in E].
  - destruct b, b'.
    + rewrite !print_functional in E.
      assert (Q : forall l, (forall f, In f l -> quoted_field f) -> Forall (no_char (chr 10)) (app ((n ++ " = TypedDict(") :: (TAB ++ dq ++ n ++ dq ++ ",") :: [TAB ++ "{"]) (app (item_lines l) [TAB ++ "},"; ")"]))).
      { intros l Hl. apply Forall_app. split.
        - constructor; [apply no_nl_app; split; [now apply word_no_nl|reflexivity]|]. constructor; [|constructor; [reflexivity|constructor]].
          apply no_nl_app. split; [reflexivity|]. apply no_nl_app. split; [reflexivity|]. apply no_nl_app. split; [now apply word_no_nl|reflexivity].
        - apply Forall_app. split; [|repeat constructor]. destruct l as [|f l]; [repeat constructor|]. unfold item_lines. apply Forall_forall. intros x Hx.
          apply in_map_iff in Hx as (g & <- & Hg). now apply item_no_nl, Hl. }
      apply join_nl_inj in E; try discriminate; try (apply Q; assumption). apply app_inv_head, app_inv_tail in E. apply item_lines_inj in E; auto. now subst.
    + exfalso. symmetry in E. now apply CF in E.
    + exfalso. now apply CF in E.
    + rewrite !print_class in E.
      assert (Q : forall l, (forall f, In f l -> class_field f) -> Forall (no_char (chr 10)) (("class " ++ n ++ "(TypedDict):") :: class_lines l)).
      { intros l Hl. constructor.
        - apply no_nl_app. split; [reflexivity|]. apply no_nl_app. split; [now apply word_no_nl|reflexivity].
        - destruct l as [|f l]; [repeat constructor|]. unfold class_lines. apply Forall_forall. intros x Hx. apply in_map_iff in Hx as (g & <- & Hg). now apply field_no_nl, Hl. }
      apply join_nl_inj in E; try discriminate; try (apply Q; assumption). injection E as E. apply class_lines_inj in E; auto. now subst.
  - exfalso. symmetry in E. destruct b; [now apply PF in E|now apply PC in E].
  - exfalso. now apply PA in E.
  - exfalso. destruct b'; [now apply PF in E|now apply PC in E].
  - cbn [print_decl] in E. do 6 apply app_inj_l in E. apply app_inj_r in E. now subst.
Qed.
