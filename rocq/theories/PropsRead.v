(** C66: the text of a file of declarations can be read in one way only. *)
From Coq Require Import Ascii String List Bool Arith Lia.
From Verif Require Import PyStr PyStrFacts SpecNames NamesFacts SpecData SpecEmit Values Build BuildFacts SpecTypes ElabFacts EmitFacts SpecSound SpecImports SpecModules SoundPrint SoundRead SampleSound PropsOutput SpecEnd.
Import ListNotations.
Local Open Scope string_scope.
Local Open Scope nat_scope.

Notation lf := (ascii_of_nat 10).
(** An empty line is only followed by a line that begins with a space; no line feed at either end. *)
Definition calm (s : string) : Prop := forall u c v, s = u ++ String lf (String lf (String c v)) -> c = " "%char.
Definition stops_well (s : string) : Prop := forall u, s <> u ++ String lf "".
Definition starts_well (s : string) : Prop := exists c r, s = String c r /\ c <> lf /\ c <> " "%char.

Lemma app_cases (a b c d : string) : a ++ b = c ++ d -> (exists z, c = a ++ z /\ b = z ++ d) \/ (exists z, a = c ++ z /\ d = z ++ b).
Proof.
  revert c. induction a as [|x a IH]; intros c E.
  - left. exists c. auto.
  - destruct c as [|y c]; cbn [append] in E; [right; exists (String x a); auto|]. injection E as -> E. destruct (IH c E) as [(z & -> & ->)|(z & -> & ->)]; [left|right]; exists z; auto.
Qed.
(** What follows a declaration: nothing, or an empty line and something that is not indented. *)
Definition rest_ok (r : string) : Prop := r = "" \/ exists c v, r = String lf (String lf (String c v)) /\ c <> " "%char.
Lemma seam a r a' r' : calm a -> calm a' -> stops_well a -> stops_well a' -> rest_ok r -> rest_ok r' -> a ++ r = a' ++ r' -> a = a' /\ r = r'.
Proof.
  assert (G : forall a r z r', calm (a ++ z) -> stops_well (a ++ z) -> rest_ok r -> r = z ++ r' -> z = "").
  { intros b r0 z r0' C St [-> |(c & v & -> & N)] E; [destruct z; [auto|discriminate]|]. destruct z as [|z1 [|z2 [|z3 z]]]; auto; cbn [append] in E; exfalso.
    - injection E as <- _. apply (St b). reflexivity.
    - injection E as <- <- _. apply (St (b ++ String lf "")). rewrite app_assoc_s. reflexivity.
    - injection E as <- <- <- _. apply N. exact (C b c z eq_refl). }
  intros C C' St St' R R' E. destruct (app_cases _ _ _ _ E) as [(z & -> & H)|(z & -> & H)].
  - assert (z = "") as -> by now apply (G a r z r'). rewrite app_nil_r_s. cbn in H. auto.
  - assert (z = "") as -> by now apply (G a' r' z r). rewrite app_nil_r_s. cbn in H. auto.
Qed.

(** ** Lines *)
Lemma no_lf_split a b l r : no_char lf l -> l ++ r = a ++ String lf b -> exists z, a = l ++ z /\ r = z ++ String lf b.
Proof.
  intros N E. destruct (app_cases _ _ _ _ E) as [(z & -> & ->)|(z & -> & F)]; [eauto|]. destruct z as [|c z]; [exists ""; rewrite !app_nil_r_s; auto|].
  exfalso. cbn [append] in F. injection F as <- F. apply no_nl_app in N as [_ N]. unfold no_char in N. discriminate N.
Qed.
Fixpoint well_lined (ls : list string) : Prop :=
  match ls with
  | [] => True
  | l :: rest => no_char lf l /\ well_lined rest /\
      (l = "" -> match rest with [] => False | String c _ :: _ => c = " "%char | _ => False end)
  end.
Lemma lined_calm ls : ls <> [] -> well_lined ls ->
  calm (join nl ls) /\ stops_well (join nl ls) /\ join nl ls <> "" /\ forall c v, join nl ls = String lf (String c v) -> c = " "%char.
Proof.
  induction ls as [|l ls IH]; [congruence|]. intros _ (N & W & Em). destruct ls as [|m ls].
  - cbn [join]. split; [|split; [|split]].
    + intros u c v E. exfalso. rewrite E in N. apply no_nl_app in N as [_ N]. discriminate N.
    + intros u E. rewrite E in N. apply no_nl_app in N as [_ N]. discriminate N.
    + exact Em.
    + intros c v E. rewrite E in N. discriminate N.
  - destruct IH as (C & St & Ne & Hd); [discriminate|exact W|]. rewrite join_cons by discriminate. change nl with (String lf "") in *. set (J := join (String lf "") (m :: ls)) in *. cbn [append].
    split; [|split; [|split]].
    + intros u c v E. apply no_lf_split in E as (z & -> & E); auto. destruct z as [|x z]; cbn [append] in E; injection E; intros.
      * eapply Hd. eassumption.
      * eapply C. eassumption.
    + intros u E. apply no_lf_split in E as (z & -> & E); auto. destruct z as [|x z]; cbn [append] in E; injection E; intros.
      * contradiction.
      * eapply St. eassumption.
    + destruct l; discriminate.
    + intros c v E. destruct l as [|x l]; cbn [append] in E.
      * specialize (Em eq_refl). destruct m as [|x m]; [contradiction|]. subst x. injection E as E. unfold J in E. destruct ls; cbn [join append] in E; injection E; intros; subst; auto.
      * injection E as -> E. discriminate N.
Qed.

Lemma word_head n r : word_like n -> n <> "" -> starts_well (n ++ r).
Proof.
  intros W N. destruct n as [|c n]; [congruence|]. apply word_like_spec in W. cbn [str_forall] in W. apply andb_true_iff in W as [W _]. exists c, (n ++ r). split; [reflexivity|].
  split; intros ->; discriminate W.
Qed.
Lemma no_empty l : Forall (fun x => no_char lf x /\ x <> "") l -> well_lined l.
Proof. induction 1 as [|x l [N E] F IH]; cbn; auto. split; auto. split; auto. intros X. contradiction. Qed.
Lemma well_lined_app a b : Forall (fun x => no_char lf x /\ x <> "") a -> well_lined b -> well_lined (a ++ b).
Proof. induction 1 as [|x l [N E] F IH]; intros W; cbn [app well_lined]; auto. split; auto. split; auto. intros X. contradiction. Qed.

Lemma readable_text d : readable d -> calm (print_decl d) /\ stops_well (print_decl d) /\ starts_well (print_decl d).
Proof.
  intros (W & N & R). assert (Wn : no_char lf (declared d)) by now apply word_no_nl.
  assert (G : forall ls, ls <> [] -> well_lined ls -> calm (join nl ls) /\ stops_well (join nl ls)) by (intros ls A B; destruct (lined_calm ls A B) as (X & Y & _); auto).
  destruct d as [n t|n [|] fs doc|n sig]; cbn [declared] in *; try contradiction.
  - cbn [print_decl]. destruct (G [n ++ ": TypeAlias = " ++ print_ty t]) as [A B]; [discriminate|..].
    { apply no_empty. constructor; [|constructor]. split; [apply no_nl_app; split; [exact Wn|]; apply no_nl_app; split; [reflexivity|now apply ty_no_nl]|]. destruct n; [congruence|discriminate]. }
    split; [exact A|]. split; [exact B|]. now apply word_head.
  - destruct R as [-> R]. rewrite print_functional.
    assert (Q : forall f, In f fs -> quoted_field f) by (intros f Hf; destruct (R f Hf) as (X & Y & Z); repeat split; auto).
    match goal with |- calm (join nl ?l) /\ _ => destruct (G l) as [A B]; [discriminate| |split; [exact A|split; [exact B|]]] end.
    + apply well_lined_app.
      { repeat constructor; try (destruct n; [congruence|discriminate]); try discriminate; repeat (apply no_nl_app; split); try reflexivity; exact Wn. }
      destruct fs as [|f fs]; [cbn; repeat split; auto; discriminate|]. apply no_empty. apply Forall_app. split.
      * apply Forall_forall. intros x Hx. apply in_map_iff in Hx as (g & <- & Hg). split; [now apply item_no_nl; apply Q|]. unfold print_item. discriminate.
      * repeat constructor; discriminate.
    + cbn [app]. match goal with |- starts_well (join nl (?x :: ?l)) => destruct (join_head nl x l) as (r & ->) end. rewrite app_assoc_s. now apply word_head.
  - destruct R as [-> R]. rewrite print_class.
    assert (Q : forall f, In f fs -> class_field f) by (intros f Hf; destruct (R f Hf) as (X & Y & Z); repeat split; auto).
    match goal with |- calm (join nl ?l) /\ _ => destruct (G l) as [A B]; [discriminate| |split; [exact A|split; [exact B|]]] end.
    + apply no_empty. constructor.
      { split; [|discriminate]. repeat (apply no_nl_app; split); try reflexivity; exact Wn. }
      destruct fs as [|f fs]; [repeat constructor; discriminate|]. apply Forall_forall. intros x Hx. apply in_map_iff in Hx as (g & <- & Hg). split; [apply field_no_nl; now apply Q|]. unfold print_field. discriminate.
    + match goal with |- starts_well (join nl (?x :: ?l)) => destruct (join_head nl x l) as (r & ->) end. exists "c"%char. eexists. split; [reflexivity|]. split; discriminate.
  - change (print_decl (DProto n sig)) with (join nl [("class " ++ n ++ "(Protocol):"); TAB ++ "def __call__" ++ sig ++ ": ..."]) || replace (print_decl (DProto n sig)) with (join nl [("class " ++ n ++ "(Protocol):"); TAB ++ "def __call__" ++ sig ++ ": ..."])
      by (cbn [join print_decl]; rewrite !app_assoc_s; reflexivity).
    match goal with |- calm (join nl ?l) /\ _ => destruct (G l) as [A B]; [discriminate| |split; [exact A|split; [exact B|]]] end.
    + apply no_empty. constructor; [|constructor; [|constructor]]; (split; [|discriminate]); repeat (apply no_nl_app; split); try reflexivity; [exact Wn|exact R].
    + exists "c"%char. eexists. split; [reflexivity|]. split; discriminate.
Qed.

Lemma following_ok ds r : Forall readable ds -> Following (map print_decl ds) r -> rest_ok r.
Proof.
  intros F H. destruct ds as [|d ds]; cbn [map] in H; inversion H as [|x l r0 C H0|x l r0 C H0]; subst; [now left| |]; right; inversion F; subst; destruct (readable_text d) as (_ & _ & c & v & E & N1 & N2); auto.
  - rewrite E. exists lf, (String c v ++ r0). split; [reflexivity|discriminate].
  - rewrite E. exists c, (v ++ r0). split; [reflexivity|exact N2].
Qed.
Lemma following_inv x l t : Following (x :: l) t -> exists r, Following l r /\ (t = empty_lines 2 ++ x ++ r \/ t = empty_lines 1 ++ x ++ r).
Proof. intros H. inversion H; subst; eauto. Qed.
Lemma layout_inv x y l t : Layout (x :: y :: l) t -> exists r, Following l r /\ t = x ++ empty_lines 2 ++ y ++ r.
Proof. intros H. inversion H; subst; eauto. Qed.
Lemma layout_one x t : Layout [x] t -> t = x ++ end_of_line.
Proof. intros H. inversion H; subst; auto. Qed.
Lemma following_one ds : forall ds' r, Forall readable ds -> Forall readable ds' -> Following (map print_decl ds) r -> Following (map print_decl ds') r -> ds = ds'.
Proof.
  induction ds as [|d ds IH]; intros ds' r F F' H H'.
  - destruct ds' as [|d' ds']; auto. exfalso. cbn in H. inversion H; subst. inversion H'.
  - destruct ds' as [|d' ds']; [exfalso; cbn in H'; inversion H'; subst; inversion H|]. cbn [map] in H, H'. inversion F as [|? ? R1 F1]; subst. inversion F' as [|? ? R1' F1']; subst.
    destruct (readable_text d R1) as (C & St & c & v & E & N1 & N2). destruct (readable_text d' R1') as (C' & St' & c' & v' & E' & N1' & N2').
    assert (X : exists r1 r2, Following (map print_decl ds) r1 /\ Following (map print_decl ds') r2 /\ print_decl d ++ r1 = print_decl d' ++ r2).
    { apply following_inv in H as (r1 & H1 & H). apply following_inv in H' as (r2 & H2 & H'). exists r1, r2. split; [exact H1|]. split; [exact H2|].
      destruct H as [-> | ->], H' as [Y|Y]; try (apply app_inj_l in Y; exact Y); exfalso; rewrite E, E' in Y; cbn in Y, N1, N1'; injection Y; intros; congruence. }
    destruct X as (r1 & r2 & H1 & H2 & X). destruct (seam _ _ _ _ C C' St St' (following_ok _ _ F1 H1) (following_ok _ _ F1' H2) X) as [Ed Er]. subst r2.
    f_equal; [now apply reading_unique|]. eapply IH; eauto.
Qed.

(** ** The block of imports *)
Definition no_three (s : string) : Prop := forall u v, s <> u ++ empty_lines 2 ++ v.
Fixpoint sparse (ls : list string) : Prop :=
  match ls with
  | [] => True
  | l :: rest => no_char lf l /\ sparse rest /\ (l = "" -> match rest with [] => True | m :: _ => m <> "" end)
  end.
Lemma sparse_join ls : sparse ls -> no_three (join nl ls) /\ (forall v, join nl ls = String lf (String lf v) -> hd "x" ls = "" /\ hd "x" (tl ls) = "") /\
  (forall v, join nl ls = String lf v -> hd "x" ls = "").
Proof.
  induction ls as [|l ls IH]; intros W.
  - cbn. split; [intros u v E; destruct u; discriminate|]. split; discriminate.
  - destruct W as (N & W & Em). destruct ls as [|m ls].
    + cbn [join hd tl]. split; [|split].
      * intros u v E. rewrite E in N. apply no_nl_app in N as [_ N]. discriminate N.
      * intros v E. rewrite E in N. discriminate N.
      * intros v E. rewrite E in N. discriminate N.
    + destruct (IH W) as (A & B & C). rewrite join_cons by discriminate. change nl with (String lf "") in *. set (J := join (String lf "") (m :: ls)) in *. cbn [append hd tl] in *.
      split; [|split].
      * intros u v E. change (empty_lines 2 ++ v) with (String lf (String lf (String lf v))) in E. apply no_lf_split in E as (z & -> & E); auto. destruct z as [|x z]; cbn [append] in E; [injection E as F|injection E as _ F].
        -- destruct (B _ F) as [E1 E2]. destruct W as (_ & _ & W). specialize (W E1). destruct ls as [|k ls]; [cbn in E2; discriminate|]. cbn in E2. congruence.
        -- eapply A. exact F.
      * intros v E. destruct l as [|x l]; cbn [append] in E; [|injection E as -> E; discriminate N]. split; auto. injection E as E. eapply C. exact E.
      * intros v E. destruct l as [|x l]; cbn [append] in E; auto. injection E as -> E. discriminate N.
Qed.
Lemma sparse_app a b : (forall x, In x a -> no_char lf x /\ x <> "") -> sparse b -> sparse (a ++ b)%list.
Proof.
  induction a as [|x a IH]; intros F W; cbn [app sparse]; auto. destruct (F x (or_introl eq_refl)) as [N E]. split; auto. split; [apply IH; auto; intros; apply F; now right|]. intros X. contradiction.
Qed.
(** The lines of a statement. *)
Lemma offers_plain p n : In n (offers p) -> no_char lf p /\ no_char lf n.
Proof.
  assert (G : forall l, forallb (fun x => str_forall (fun d => negb (Ascii.eqb lf d)) x) l = true -> In n l -> no_char lf n).
  { intros l A I. rewrite forallb_forall in A. specialize (A n I). exact A. }
  unfold offers. intros H. repeat match type of H with In _ (if String.eqb p ?q then _ else _) => destruct (String.eqb_spec p q) as [->|]; [split; [reflexivity|]; eapply G; [|exact H]; vm_compute; reflexivity|] end. destruct H.
Qed.

Definition solid_line (x : string) : Prop := no_char lf x /\ x <> "".
Lemma joined_lines sep l s : (forall x, In x l -> no_char lf x) -> no_char lf sep -> Joined sep l s -> no_char lf s.
Proof.
  intros F N J. induction J as [|x|x y l s J IH]; [reflexivity|apply F; now left|]. apply no_nl_app. split; [apply F; now left|]. apply no_nl_app. split; auto. apply IH. intros z Hz. apply F. now right.
Qed.
Lemma joined_block l s : (forall x, In x l -> no_char lf x) -> l <> [] -> Joined ("," ++ newline ++ "    ") l s ->
  exists ls, Forall solid_line ls /\ "    " ++ s ++ "," = join nl ls /\ ls <> [].
Proof.
  intros F N J. induction J as [|x|x y l s J IH]; [congruence| |].
  - exists ["    " ++ x ++ ","]. split; [|split; [reflexivity|discriminate]]. constructor; [|constructor]. split; [|discriminate]. apply no_nl_app. split; [reflexivity|]. apply no_nl_app. split; [apply F; now left|reflexivity].
  - destruct IH as (ls & A & B & C); [intros z Hz; apply F; now right|discriminate|]. exists (("    " ++ x ++ ",") :: ls). split; [|split; [|discriminate]].
    + constructor; auto. split; [|discriminate]. apply no_nl_app. split; [reflexivity|]. apply no_nl_app. split; [apply F; now left|reflexivity].
    + rewrite join_cons by assumption. rewrite <- B. rewrite !app_assoc_s. reflexivity.
Qed.
Lemma join_snoc ls x : ls <> [] -> join nl (ls ++ [x])%list = join nl ls ++ nl ++ x.
Proof.
  induction ls as [|l ls IH]; [congruence|]. intros _. destruct ls as [|m ls]; [reflexivity|]. cbn [app] in *. rewrite (join_cons nl l (m :: ls ++ [x])), (join_cons nl l (m :: ls)) by discriminate. rewrite IH by discriminate. now rewrite !app_assoc_s.
Qed.
Lemma join_app a b : a <> [] -> b <> [] -> join nl (a ++ b)%list = join nl a ++ nl ++ join nl b.
Proof.
  induction a as [|l a IH]; [congruence|]. intros _ N. destruct a as [|m a]; [cbn [app]; now rewrite join_cons|]. cbn [app] in *. rewrite (join_cons nl l (m :: a ++ b)), (join_cons nl l (m :: a)) by discriminate. rewrite IH by (auto; discriminate). now rewrite !app_assoc_s.
Qed.
Lemma statement_lines x : importable x -> exists ls, Forall solid_line ls /\ s_text x = join nl ls /\ ls <> [].
Proof.
  destruct x as [[p ns] st]. unfold importable, s_text, s_module, s_names. cbn [fst snd]. intros [St R].
  assert (one : forall s, solid_line s -> exists ls, Forall solid_line ls /\ s = join nl ls /\ ls <> []) by (intros s H; exists [s]; split; [constructor; auto|split; [reflexivity|discriminate]]).
  destruct St as [| | |p ns s W Ne J|p ns s W Ne J]; try (apply one; split; [reflexivity|discriminate]).
  - destruct R as [R|(_ & _ & R)].
    { exfalso. unfold module_import in R. cbn [In] in R. destruct R as [R|[R|[R|[]]]]; discriminate R. }
    apply one. split; [|discriminate]. assert (P : no_char lf p) by (destruct ns as [|n ns]; [congruence|]; exact (proj1 (offers_plain p n (R n (or_introl eq_refl))))).
    repeat (apply no_nl_app; split); try reflexivity; auto. eapply joined_lines; [| |exact J]; [|reflexivity]. intros n Hn. exact (proj2 (offers_plain p n (R n Hn))).
  - destruct R as [R|(_ & _ & R)].
    { exfalso. unfold module_import in R. cbn [In] in R. destruct R as [R|[R|[R|[]]]]; discriminate R. }
    assert (P : no_char lf p) by (destruct ns as [|n ns]; [congruence|]; exact (proj1 (offers_plain p n (R n (or_introl eq_refl))))).
    destruct (joined_block ns s) as (ls & A & B & C); auto. { intros n Hn. exact (proj2 (offers_plain p n (R n Hn))). }
    exists (("from " ++ p ++ " import (") :: (ls ++ [")"])%list). split; [|split; [|discriminate]].
    + constructor; [|apply Forall_app; split; auto; constructor; [split; [reflexivity|discriminate]|constructor]]. split; [|discriminate]. repeat (apply no_nl_app; split); try reflexivity; auto.
    + rewrite join_cons by (destruct ls; discriminate). rewrite join_snoc by assumption. rewrite <- B. rewrite !app_assoc_s. reflexivity.
Qed.
Lemma joined_sparse l s : (forall x, In x l -> exists ls, Forall solid_line ls /\ x = join nl ls /\ ls <> []) -> Joined newline l s ->
  exists ls, Forall solid_line ls /\ s = join nl ls /\ (l <> [] -> ls <> []).
Proof.
  intros F J. induction J as [|x|x y l s J IH].
  - exists []. repeat split; auto.
  - destruct (F x) as (ls & A & B & C); [now left|]. exists ls. auto.
  - destruct (F x) as (ls & A & B & C); [now left|]. destruct IH as (ms & A' & B' & C'); [intros z Hz; apply F; now right|]. exists (ls ++ ms)%list. split; [now apply Forall_app|]. split.
    + rewrite join_app; auto; [|apply C'; discriminate]. now rewrite B, B'.
    + intros _. destruct ls; [congruence|discriminate].
Qed.
Lemma solid_sparse ls : Forall solid_line ls -> sparse ls.
Proof. intros F. rewrite <- (app_nil_r ls). apply sparse_app; [|exact I]. rewrite Forall_forall in F. exact F. Qed.
Lemma block_sparse stmts block : import_block stmts block -> no_three block.
Proof.
  intros [F J]. rewrite Forall_forall in F.
  assert (G : forall x, In x (map s_text stmts) -> exists ls, Forall solid_line ls /\ x = join nl ls /\ ls <> []).
  { intros x Hx. apply in_map_iff in Hx as (st & <- & Hst). now apply statement_lines, F. }
  destruct J as [J|(h & t & E & J)].
  - destruct (joined_sparse _ _ G J) as (ls & A & -> & _). now apply sparse_join, solid_sparse.
  - rewrite E in G. destruct (G h) as (hs & A & B & C); [now left|]. inversion J as [|x Ex|x y l s J' Ex]; subst.
    + replace (join nl hs ++ newline) with (join nl (hs ++ [""])%list) by (rewrite join_snoc by assumption; now rewrite app_nil_r_s). apply sparse_join, sparse_app; [rewrite Forall_forall in A; exact A|]. cbn. repeat split; auto.
    + destruct (joined_sparse (y :: l) s) as (ms & A' & B' & C'); auto. { intros z Hz. apply G. now right. }
      replace ((join nl hs ++ newline) ++ newline ++ s) with (join nl (hs ++ "" :: ms)%list).
      * apply sparse_join, sparse_app; [rewrite Forall_forall in A; exact A|]. cbn [sparse]. split; [reflexivity|]. split; [now apply solid_sparse|]. intros _. destruct ms as [|m ms]; auto. inversion A' as [|? ? [_ X] _]. exact X.
      * rewrite join_app by (auto; discriminate). rewrite join_cons by (apply C'; discriminate). rewrite B', !app_assoc_s. reflexivity.
Qed.
Lemma block_seam a r a' r' : no_three a -> no_three a' -> (r = "" \/ exists c v, r = String c v /\ c <> lf) -> (r' = "" \/ exists c v, r' = String c v /\ c <> lf) ->
  a ++ empty_lines 2 ++ r = a' ++ empty_lines 2 ++ r' -> a = a' /\ r = r'.
Proof.
  assert (G : forall a r z r', no_three (a ++ z) -> (r = "" \/ exists c v, r = String c v /\ c <> lf) -> empty_lines 2 ++ r = z ++ empty_lines 2 ++ r' -> z = "").
  { intros b r0 z r0' N R E. cbn in E. destruct z as [|z1 [|z2 [|z3 z]]]; auto; cbn [append] in E; exfalso.
    - injection E as <- E. destruct R as [-> |(c & v & -> & X)]; [discriminate|]. injection E as -> _. cbn in X. congruence.
    - injection E as <- <- E. destruct R as [-> |(c & v & -> & X)]; [discriminate|]. injection E as -> _. cbn in X. congruence.
    - injection E as <- <- <- E. apply (N b z). reflexivity. }
  intros N N' R R' E. destruct (app_cases _ _ _ _ E) as [(z & -> & H)|(z & -> & H)].
  - assert (z = "") as -> by now apply (G a r z r'). rewrite app_nil_r_s. cbn in H. injection H. auto.
  - assert (z = "") as -> by now apply (G a' r' z r). rewrite app_nil_r_s. cbn in H. injection H. auto.
Qed.

Lemma no_single a a' x : no_three a -> x <> "" -> a ++ end_of_line <> a' ++ empty_lines 2 ++ x.
Proof.
  intros N X E. destruct (app_cases _ _ _ _ E) as [(z & -> & H)|(z & -> & H)].
  - destruct z as [|c [|? z]]; discriminate H.
  - cbn in H. destruct z as [|z1 [|z2 [|z3 z]]]; cbn [append] in H; try discriminate H; [injection H as _ _ H; contradiction|]. injection H as <- <- <- H. apply (N a' z). reflexivity.
Qed.

(** The text of a file of declarations has one reading. *)
Theorem C66_one_reading : forall text stmts stmts' ds ds', Reads text stmts ds -> Reads text stmts' ds' -> ds = ds'.
Proof.
  intros text stmts stmts' ds ds' (block & B & F & H) (block' & B' & F' & H'). apply block_sparse in B. apply block_sparse in B'. destruct ds as [|d ds], ds' as [|d' ds']; auto; cbn [map] in *.
  - exfalso. apply layout_one in H. apply layout_inv in H' as (r & _ & ->). inversion F' as [|? ? R1 F1]; subst. destruct (readable_text d' R1) as (_ & _ & c & v & E & _). symmetry in H. apply no_single in H; auto. rewrite E. discriminate.
  - exfalso. apply layout_one in H'. apply layout_inv in H as (r & _ & ->). inversion F as [|? ? R1 F1]; subst. destruct (readable_text d R1) as (_ & _ & c & v & E & _). symmetry in H'. apply no_single in H'; auto. rewrite E. discriminate.
  - apply layout_inv in H as (r & H0 & ->). apply layout_inv in H' as (r' & H0' & X).
    inversion F as [|? ? R1 F1]; subst. inversion F' as [|? ? R1' F1']; subst. destruct (readable_text d R1) as (C & St & c & v & E & N & _). destruct (readable_text d' R1') as (C' & St' & c' & v' & E' & N' & _).
    apply block_seam in X as [_ X]; auto; [|right; rewrite E; exists c, (v ++ r); auto|right; rewrite E'; exists c', (v' ++ r'); auto].
    destruct (seam _ _ _ _ C C' St St' (following_ok _ _ F1 H0) (following_ok _ _ F1' H0') X) as [Ed Er]. subst r'. f_equal; [now apply reading_unique|]. eapply following_one; eauto.
Qed.
Print Assumptions C66_one_reading.
Example C66_one_reading_example :
  Reads ("from typing_extensions import TypeAlias" ++ nl ++ nl ++ nl ++ "A: TypeAlias = int" ++ nl ++ nl ++ "B: TypeAlias = A")
    [("typing_extensions", ["TypeAlias"], "from typing_extensions import TypeAlias")] [DAlias "A" (TName "int"); DAlias "B" (TName "A")].
Proof.
  exists "from typing_extensions import TypeAlias". split; [split|split].
  - constructor; [|constructor]. split.
    + apply (St_line "typing_extensions" ["TypeAlias"] "TypeAlias"); [intros [X|[X|X]]; discriminate X|discriminate|constructor].
    + right. split; [intros [X|[X|X]]; discriminate X|]. split; [discriminate|]. intros x [<-|[]]. cbn. tauto.
  - left. constructor.
  - apply readableb_spec. reflexivity.
  - apply (lay_more _ "A: TypeAlias = int" ["B: TypeAlias = A"] (nl ++ nl ++ "B: TypeAlias = A")). apply (fol_other "B: TypeAlias = A" [] ""); [intros [r X]; discriminate X|constructor].
Qed.
