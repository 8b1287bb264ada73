(** C69 for TypedDicts in class syntax: which roots are renamed as a whole. *)
From Coq Require Import Ascii String List Bool Arith Lia.
From Verif Require Import PyStr PyStrFacts Utils Strategies Values Tree Build Emit SpecData SpecNames NamesFacts SpecTypes EmitFacts ElabFacts Samples SpecText SpecYaml SpecDeclaration SoundPrint Output DeclarationFacts PropsOutput.
Import ListNotations.
Local Open Scope string_scope.

(** ** Specification *)
(** The names and the quoted names of the type have no white space and no equals sign. *)
Definition bare_name (n : string) : Prop := Forall (fun c => ~ white c /\ c <> "="%char) (chars n).
Fixpoint bare_type (t : ty) : Prop :=
  match t with
  | TName n | TStr n => bare_name n
  | TApp h args => bare_name h /\ (fix all (l : list ty) : Prop := match l with [] => True | a :: r => bare_type a /\ all r end) args
  | TArgs args => (fix all (l : list ty) : Prop := match l with [] => True | a :: r => bare_type a /\ all r end) args
  | TDots => True
  end.
Definition ends_in_class (x : string) : Prop := exists u, x = u ++ "class".

(** ** White space after the letters of "class" *)
Definition noclass (x : string) : Prop := forall p w q, white w -> x = p ++ String w q -> ~ ends_in_class p.
(** Every white space is after a character other than "s". *)
Definition marked (x : string) : Prop := forall p w q, white w -> x = p ++ String w q -> exists p' d, p = p' ++ String d "" /\ d <> "s"%char.

Lemma split_two (a : string) : forall b p w q, a ++ b = p ++ String w q -> (exists q', a = p ++ String w q') \/ (exists p', p = a ++ p' /\ b = p' ++ String w q).
Proof.
  induction a as [|c a IH]; intros b p w q E; [right; exists p; auto|]. destruct p as [|d p]; cbn [String.append] in E; injection E as -> E; [left; exists a; reflexivity|].
  destruct (IH _ _ _ _ E) as [(q' & ->)|(p' & -> & ->)]; [left; exists q'; reflexivity|right; exists p'; auto].
Qed.
Lemma snoc_inj (a b : string) c d : a ++ String c "" = b ++ String d "" -> a = b /\ c = d.
Proof.
  revert b. induction a as [|x a IH]; intros [|z b] E; cbn [String.append] in E.
  - injection E as ->. auto.
  - injection E as _ E. destruct b; discriminate E.
  - injection E as _ E. destruct a; discriminate E.
  - injection E as -> E. destruct (IH b E) as [-> ->]. auto.
Qed.
Lemma class_s u : u ++ "class" = (u ++ "clas") ++ String "s" "".
Proof. now rewrite app_assoc_s. Qed.
Lemma marked_noclass x : marked x -> noclass x.
Proof. intros M p w q Hw E (u & Eu). destruct (M p w q Hw E) as (p' & d & Ep & N). rewrite Eu, class_s in Ep. apply snoc_inj in Ep as [_ Ep]. congruence. Qed.
Lemma marked_app a b : marked a -> marked b -> marked (a ++ b).
Proof.
  intros A B p w q Hw E. apply split_two in E as [(q' & E)|(p' & -> & E)]; [exact (A p w q' Hw E)|]. destruct (B p' w q Hw E) as (p2 & d & -> & N). exists (a ++ p2), d. now rewrite app_assoc_s.
Qed.
Lemma marked_free x : Forall (fun c => ~ white c) (chars x) -> marked x.
Proof. intros F p w q Hw E. exfalso. rewrite Forall_forall in F. apply (F w); [|exact Hw]. subst x. clear. induction p; cbn; auto. Qed.
Lemma marked_sep c : ~ white c -> c <> "s"%char -> marked (String c " ").
Proof.
  intros Wc N p w q Hw E. destruct p as [|d p]; cbn [String.append] in E; injection E as -> E; [contradiction|]. destruct p as [|d' p]; [exists "", d; auto|]. exfalso. cbn [String.append] in E. destruct p; discriminate.
Qed.
Lemma marked_join l : Forall marked l -> marked (join ", " l).
Proof.
  induction 1 as [|x l M F IH]; [apply marked_free; constructor|]. destruct l as [|y l]; [exact M|]. rewrite join_cons by discriminate. apply marked_app; [exact M|]. apply marked_app; [|exact IH].
  apply marked_sep; [cbn; intuition discriminate|discriminate].
Qed.
Lemma bare_all args : (fix all (l : list ty) : Prop := match l with [] => True | a :: r => bare_type a /\ all r end) args <-> Forall bare_type args.
Proof. induction args as [|a args IH]; [split; auto|]. split; [intros [A B]; constructor; [exact A|now apply IH]|intros F; inversion F; subst; split; [assumption|now apply IH]]. Qed.
Lemma bare_marked n : bare_name n -> marked n.
Proof. intros F. apply marked_free. eapply Forall_impl; [|exact F]. cbn. tauto. Qed.
Ltac free_text := apply marked_free; repeat (apply Forall_cons; [cbn; intuition discriminate|]); apply Forall_nil.
Lemma type_marked t : bare_type t -> marked (print_ty t).
Proof.
  induction t as [n|x|h args IH|args IH|] using ty_ind'; intros W; cbn [print_ty bare_type] in *.
  - now apply bare_marked.
  - apply marked_app; [free_text|]. apply marked_app; [now apply bare_marked|free_text].
  - destruct W as [Wh W]. apply bare_all in W. apply marked_app; [now apply bare_marked|]. apply marked_app; [free_text|]. apply marked_app; [|free_text]. apply marked_join. apply Forall_map. rewrite Forall_forall in *. auto.
  - apply bare_all in W. apply marked_app; [free_text|]. apply marked_app; [|free_text]. apply marked_join. apply Forall_map. rewrite Forall_forall in *. auto.
  - free_text.
Qed.

Lemma noclass_cat a w b : white w -> noclass a -> noclass b -> ~ ends_in_class a -> noclass (a ++ String w b).
Proof.
  intros Hw A B N p w' q Hw' E. apply split_two in E as [(q' & E)|(p' & -> & E)]; [exact (A p w' q' Hw' E)|]. destruct p' as [|c p']; cbn [String.append] in E; injection E as -> E; [now rewrite app_nil_r_s|].
  intros (u & Eu). apply (B p' w' q Hw' E). clear - Eu Hw. pose proof Eu as Eu'.
  symmetry in Eu. apply split_two in Eu as [(q' & ->)|(p2 & -> & E)].
  - exists q'. rewrite app_assoc_s in Eu'. apply app_inj_l in Eu'. now injection Eu'.
  - exfalso. assert (I : In c (chars "class")) by (rewrite E; clear; induction p2; cbn; auto). cbn in I. destruct I as [<-|[<-|[<-|[<-|[<-|[]]]]]]; cbn in Hw; intuition discriminate.
Qed.
Lemma noclass_in x : noclass x -> no_class_in x.
Proof.
  intros H a b -> n rest (gap & -> & Ng & Bg & _). destruct gap as [|w gap]; [congruence|]. inversion Bg as [|? ? Hw _]; subst. apply (H (a ++ "class") w (gap ++ n ++ rest) Hw); [now rewrite !app_assoc_s|exists a; reflexivity].
Qed.

(** ** The fields *)
Definition line_of (f : field) : string := fd_key f ++ ": " ++ print_ty (fd_type f).
Definition bare_field (f : field) : Prop := fd_doc f = None /\ bare_name (fd_key f) /\ bare_type (fd_type f).
Lemma field_line f : fd_doc f = None -> print_field f = TAB ++ line_of f.
Proof. intros D. unfold print_field, line_of. rewrite D, app_nil_r_s. reflexivity. Qed.
Lemma line_marked f : bare_field f -> marked (line_of f).
Proof. intros (_ & K & T). apply marked_app; [now apply bare_marked|]. apply marked_app; [apply marked_sep; [cbn; intuition discriminate|discriminate]|now apply type_marked]. Qed.
Lemma line_ends f : ends_in_class (line_of f) -> ends_in_class (print_ty (fd_type f)).
Proof.
  intros (u & E). unfold line_of in E. replace (fd_key f ++ ": " ++ print_ty (fd_type f)) with ((fd_key f ++ ":") ++ String " " (print_ty (fd_type f))) in E by now rewrite !app_assoc_s.
  symmetry in E. pose proof E as E'. apply split_two in E as [(q' & ->)|(p2 & _ & E)].
  - exists q'. rewrite app_assoc_s in E'. apply app_inj_l in E'. now injection E'.
  - exfalso. assert (I : In " "%char (chars "class")) by (rewrite E; clear; induction p2; cbn; auto). cbn in I. intuition discriminate.
Qed.
Lemma noclass_white w x : white w -> noclass x -> noclass (String w x).
Proof. intros Hw H. apply (noclass_cat "" w x Hw); [|exact H|intros ([|] & E); discriminate E]. intros p w' q _ E. destruct p; discriminate E. Qed.
Lemma tab_noclass x : noclass x -> noclass (TAB ++ x).
Proof. intros H. assert (W : white " "%char) by (cbn; tauto). unfold TAB. cbn [String.append]. now repeat apply noclass_white. Qed.
(** No line but the last one ends with "class". *)
Definition apart (fs : list field) : Prop := forall a f g r, fs = (a ++ f :: g :: r)%list -> ~ ends_in_class (print_ty (fd_type f)).
Lemma fields_noclass fs : Forall bare_field fs -> apart fs -> fs <> [] -> noclass (join nl (map print_field fs)).
Proof.
  induction 1 as [|f fs B F IH]; intros A N; [congruence|]. pose proof B as (D & _). cbn [map]. rewrite (field_line f D). destruct fs as [|g fs]; [cbn [map join]; now apply tab_noclass, marked_noclass, line_marked|].
  rewrite join_cons by discriminate. rewrite !app_assoc_s. apply tab_noclass. apply (noclass_cat (line_of f) (ascii_of_nat 10)).
  - cbn; tauto.
  - now apply marked_noclass, line_marked.
  - apply IH; [|discriminate]. intros a f' g' r E. apply (A (f :: a) f' g' r). now rewrite E.
  - intros E. apply (A [] f g fs eq_refl). now apply line_ends.
Qed.
Definition eq_less (x : string) : Prop := Forall (fun c => c <> "="%char) (chars x).
Lemma less_app a b : eq_less a -> eq_less b -> eq_less (a ++ b).
Proof. unfold eq_less. intros A B. rewrite chars_app. now apply Forall_app. Qed.
Lemma less_join sep l : eq_less sep -> Forall eq_less l -> eq_less (join sep l).
Proof. intros E. induction 1 as [|x l M F IH]; [constructor|]. destruct l as [|y l]; [exact M|]. rewrite join_cons by discriminate. now repeat apply less_app. Qed.
Lemma less_without x : eq_less x -> without "=" x.
Proof. intros F a b E. unfold eq_less in F. rewrite Forall_forall in F. apply (F "="%char); [|reflexivity]. subst x. clear. induction a; cbn; auto. Qed.
Lemma bare_less n : bare_name n -> eq_less n.
Proof. intros F. eapply Forall_impl; [|exact F]. cbn. tauto. Qed.
Ltac less_text := repeat (apply Forall_cons; [discriminate|]); apply Forall_nil.
Lemma type_less t : bare_type t -> eq_less (print_ty t).
Proof.
  induction t as [n|x|h args IH|args IH|] using ty_ind'; intros W; cbn [print_ty bare_type] in *.
  - now apply bare_less.
  - apply less_app; [less_text|]. apply less_app; [now apply bare_less|less_text].
  - destruct W as [Wh W]. apply bare_all in W. apply less_app; [now apply bare_less|]. apply less_app; [less_text|]. apply less_app; [|less_text]. apply less_join; [less_text|]. apply Forall_map. rewrite Forall_forall in *. auto.
  - apply bare_all in W. apply less_app; [less_text|]. apply less_app; [|less_text]. apply less_join; [less_text|]. apply Forall_map. rewrite Forall_forall in *. auto.
  - less_text.
Qed.
Lemma fields_less fs : Forall bare_field fs -> eq_less (join nl (map print_field fs)).
Proof.
  intros F. apply less_join; [less_text|]. apply Forall_map. eapply Forall_impl; [|exact F]. intros f (D & K & T). rewrite (field_line f D). apply less_app; [less_text|]. apply less_app; [now apply bare_less|]. apply less_app; [less_text|now apply type_less].
Qed.

(** ** C69 *)
(** A TypedDict in class syntax without docstrings, with bare names: the class is renamed and nothing else, and the new class derives from it, if no type but the last one ends with "class". *)
Theorem C69_typed_partial : forall s t include_imports l n fs, get_strs s t include_imports = Some (app l [print_decl (DTyped n false fs None)]) ->
  word_name n -> Forall bare_field fs -> apart fs ->
  get_strs_inheriting s t include_imports = Some (app l [print_decl (DTyped ("_" ++ n) false fs None); "class " ++ n ++ "(_" ++ n ++ "):" ++ nl ++ "    ..."]).
Proof.
  intros s t b l n fs H W F A.
  set (body := join nl (match fs with [] => [TAB ++ "..."] | _ => map print_field fs end)).
  assert (P : forall m, print_decl (DTyped m false fs None) = "class " ++ m ++ "(TypedDict):" ++ nl ++ body).
  { intros m. unfold body. cbn [print_decl opt_list map app]. rewrite join_cons by (destruct fs; discriminate). now rewrite !app_assoc_s. }
  rewrite P in H. rewrite P. replace ("class " ++ ("_" ++ n) ++ "(TypedDict):" ++ nl ++ body) with ("class _" ++ n ++ "(TypedDict):" ++ nl ++ body) by (now rewrite !app_assoc_s).
  apply (C69_inherits_partial s t b l n ("(TypedDict):" ++ nl ++ body) H W).
  - right. eexists _, _. split; [reflexivity|now left].
  - apply less_without. apply less_app; [less_text|]. apply less_app; [less_text|]. unfold body. destruct fs as [|f fs]; [less_text|now apply fields_less].
  - apply noclass_in. apply (noclass_cat "(TypedDict):" (ascii_of_nat 10) body).
    + cbn; tauto.
    + apply marked_noclass. free_text.
    + unfold body. destruct fs as [|f fs]; [|apply fields_noclass; auto; discriminate]. cbn [join]. apply tab_noclass, marked_noclass. free_text.
    + intros (u & E). do 13 (destruct u as [|? u]; [discriminate E|cbn [String.append] in E; try (injection E as _ E)]). discriminate E.
Qed.
Print Assumptions C69_typed_partial.
Example C69_typed_example : exists t l fs, from_data default_strategies as_inserted (vdict [("a", vint); ("b", vdict [("x", vint)])]) "Example" = Ok t /\
  get_strs default_strategies t false = Some (app l [print_decl (DTyped "Example" false fs None)]) /\ word_name "Example" /\ Forall bare_field fs /\ apart fs /\
  l = ["class ExampleB(TypedDict):" ++ nl ++ "    x: int"] /\
  get_strs_inheriting default_strategies t false = Some (app l
    ["class _Example(TypedDict):" ++ nl ++ "    a: int" ++ nl ++ "    b: ExampleB"; "class Example(_Example):" ++ nl ++ "    ..."]).
Proof.
  eexists. exists ["class ExampleB(TypedDict):" ++ nl ++ "    x: int"], [{| fd_key := "a"; fd_type := TName "int"; fd_doc := None |}; {| fd_key := "b"; fd_type := TName "ExampleB"; fd_doc := None |}].
  split; [vm_compute; reflexivity|]. split; [vm_compute; reflexivity|].
  split; [split; [discriminate|cbn [chars]; repeat (apply Forall_cons; [unfold ascii_word; vm_compute; lia|]); apply Forall_nil]|].
  split; [repeat (apply Forall_cons || apply Forall_nil); (split; [reflexivity|]; split; cbn; repeat (apply Forall_cons || apply Forall_nil); cbn; intuition discriminate)|].
  split; [|split; [reflexivity|vm_compute; reflexivity]].
  intros a f g r E. destruct a as [|a0 [|a1 [|a2 a]]]; try discriminate E. injection E as <- <- <-. intros (u & Eu). cbn in Eu.
  do 4 (destruct u as [|? u]; [discriminate Eu|cbn [String.append] in Eu; try (injection Eu as _ Eu)]); discriminate Eu.
Qed.

(** The conditions are needed: two fields become one line if the type of the first ends with "class" (here the name made from the
    key "subclass"), ... *)
Theorem C69_data_refuted : exists t l, from_data default_strategies as_inserted (vdict [("subclass", vdict [("x", vint)]); ("b", vint)]) "Example" = Ok t /\
  get_strs_inheriting default_strategies t false = Some l /\
  l = ["class ExampleSubclass(TypedDict):" ++ nl ++ "    x: int";
       "class _Example(TypedDict):" ++ nl ++ "    subclass: ExampleSubclass _Example: int";
       "class Example(_Example):" ++ nl ++ "    ..."].
Proof. do 2 eexists. split; [vm_compute; reflexivity|]. split; vm_compute; reflexivity. Qed.
Print Assumptions C69_data_refuted.
(** ... and an equals sign in a docstring makes the whole declaration before it the name. *)
Theorem C69_comment_refuted : exists t, from_data default_strategies as_inserted (vdict [("___docstring_hidden_key_x", VStr "Use x = 1."); ("x", vint); ("b", vint)]) "Example" = Ok t /\
  exists second, get_strs_inheriting default_strategies t false =
    Some ["_class Example(TypedDict):" ++ nl ++ "    x: int" ++ nl ++ "    """"""Use x = 1.""""""" ++ nl ++ "    b: int"; second] /\
    second = "class class Example(TypedDict):" ++ nl ++ "    x: int" ++ nl ++ "    """"""Use x(_class Example(TypedDict):" ++ nl ++ "    x: int" ++ nl ++ "    """"""Use x):" ++ nl ++ "    ...".
Proof. eexists. split; [vm_compute; reflexivity|]. eexists. split; vm_compute; reflexivity. Qed.
Print Assumptions C69_comment_refuted.

(** TypedDicts in functional syntax without equals signs: the variable is renamed, but the name in quotes is not, so that the two
    differ (which type checkers report). *)
Definition functional (variable quoted : string) (fs : list field) : string :=
  join nl ((variable ++ " = TypedDict(") :: (TAB ++ dq ++ quoted ++ dq ++ ",") :: (TAB ++ "{")
    :: app (match fs with [] => [""] | _ => map print_item fs end) [TAB ++ "},"; ")"]).
Lemma functional_print n fs : print_decl (DTyped n true fs None) = functional n n fs.
Proof. reflexivity. Qed.
Definition eq_less_field (f : field) : Prop := eq_less (fd_key f) /\ eq_less (print_ty (fd_type f)).
Theorem C69_functional_wrong : forall s t include_imports l n fs, get_strs s t include_imports = Some (app l [print_decl (DTyped n true fs None)]) ->
  word_name n -> Forall eq_less_field fs ->
  get_strs_inheriting s t include_imports = Some (app l [functional ("_" ++ n) n fs; "class " ++ n ++ "(_" ++ n ++ "):" ++ nl ++ "    ..."]).
Proof.
  intros s t b l n fs H W F.
  set (body := join nl ((TAB ++ dq ++ n ++ dq ++ ",") :: (TAB ++ "{") :: app (match fs with [] => [""] | _ => map print_item fs end) [TAB ++ "},"; ")"])).
  assert (P : forall m, functional m n fs = m ++ " =" ++ " TypedDict(" ++ nl ++ body).
  { intros m. unfold functional. rewrite join_cons by discriminate. fold body. now rewrite !app_assoc_s. }
  rewrite functional_print, P in H. rewrite P. rewrite app_assoc_s. apply (C69_assigned_partial s t b l n _ H W).
  apply less_without. apply less_app; [less_text|]. apply less_app; [less_text|]. apply less_join; [less_text|].
  assert (N : eq_less n). { destruct W as [_ W]. eapply Forall_impl; [|exact W]. intros c [A|[A|[A|A]]] ->; vm_compute in A; lia. }
  apply Forall_cons; [apply less_app; [less_text|]; apply less_app; [less_text|]; apply less_app; [exact N|less_text]|].
  apply Forall_cons; [less_text|]. apply Forall_app. split; [|repeat (apply Forall_cons; [less_text|]); apply Forall_nil].
  assert (Q : Forall eq_less (map print_item fs)).
  { apply Forall_map. eapply Forall_impl; [|exact F]. intros f (K & T). unfold print_item. repeat (apply less_app; [first [exact K|exact T|less_text]|]); first [exact K|exact T|less_text]. }
  destruct fs; [apply Forall_cons; [less_text|apply Forall_nil]|exact Q].
Qed.
Print Assumptions C69_functional_wrong.
Example C69_functional_example : exists t fs, from_data default_strategies as_inserted (vdict [("a b", vint)]) "Example" = Ok t /\
  get_strs default_strategies t false = Some (app [] [print_decl (DTyped "Example" true fs None)]) /\ Forall eq_less_field fs /\ fs <> [] /\
  get_strs_inheriting default_strategies t false = Some
    ["_Example = TypedDict(" ++ nl ++ "    ""Example""," ++ nl ++ "    {" ++ nl ++ "        ""a b"": int," ++ nl ++ "    }," ++ nl ++ ")"; "class Example(_Example):" ++ nl ++ "    ..."].
Proof.
  eexists. exists [{| fd_key := "a b"; fd_type := TName "int"; fd_doc := None |}]. split; [vm_compute; reflexivity|]. split; [vm_compute; reflexivity|].
  split; [apply Forall_cons; [split; less_text|apply Forall_nil]|]. split; [discriminate|]. vm_compute; reflexivity.
Qed.
