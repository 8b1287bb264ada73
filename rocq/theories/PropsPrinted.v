(** C65, C80 and C84: the exact texts that are written and printed. *)
From Coq Require Import Ascii String List Bool Arith ZArith Lia.
From Verif Require Import PyStr PyStrFacts Exc Utils Strategies Dispatch Values Tree Build SpecNames SpecImports ImportsFacts SpecData SpecEmit SampleEmit Samples EmitTop
  CheckCode SpecText SpecMypy SpecCheck PropsCheck Show PropsEmit PropsShow Frame.
Import ListNotations.
Local Open Scope string_scope.
Local Open Scope nat_scope.

(** ** C65: literals of text, from the documentation of [repr] *)
Definition hex_digits : string := "0123456789abcdef".
Definition escape (c : ascii) (s : string) : string := String (ascii_of_nat 92) (String c s).
(** [Written q c t]: between the quotation marks [q] the character [c] is written [t]. *)
Inductive Written (q : ascii) : ascii -> string -> Prop :=
  | written_backslash : forall c, code c = 92 -> Written q c (escape c "")
  | written_quote : Written q q (escape q "")
  | written_tab : forall c, code c = 9 -> Written q c (escape "t" "")
  | written_feed : forall c, code c = 10 -> Written q c (escape "n" "")
  | written_return : forall c, code c = 13 -> Written q c (escape "r" "")
  | written_plain : forall c, c <> q -> code c <> 92 -> 32 <= code c <= 126 \/ 161 <= code c /\ code c <> 173 -> Written q c (String c "")
  | written_hex : forall c a b x y, code c < 32 \/ 127 <= code c <= 160 \/ code c = 173 -> ~ In (code c) [9; 10; 13] ->
      code c = 16 * a + b -> a < 16 -> b < 16 -> String.get a hex_digits = Some x -> String.get b hex_digits = Some y ->
      Written q c (escape "x" (String x (String y ""))).

Lemma repr_char_written q c : q = chr 39 \/ q = chr 34 -> Written q c (repr_char q c).
Proof.
  intros Hq. unfold repr_char. destruct (Ascii.eqb_spec c (chr 92)) as [->|N1]; [apply written_backslash; reflexivity|].
  destruct (Ascii.eqb_spec c q) as [->|N2]; [apply written_quote|].
  destruct (Ascii.eqb_spec c (chr 9)) as [->|N3]; [apply written_tab; reflexivity|].
  destruct (Ascii.eqb_spec c (chr 10)) as [->|N4]; [apply written_feed; reflexivity|].
  destruct (Ascii.eqb_spec c (chr 13)) as [->|N5]; [apply written_return; reflexivity|].
  assert (K : forall n, n < 256 -> code c = n -> c = chr n).
  { intros n _ E. unfold code in E. rewrite <- (ascii_nat_embedding c), E. reflexivity. }
  destruct (printable c) eqn:P.
  - apply written_plain; auto; [intros E; apply N1; now apply (K 92); [lia|]|]. unfold printable in P. cbv zeta in P. change (nat_of_ascii c) with (code c) in P.
    rewrite orb_true_iff, !andb_true_iff, negb_true_iff, !Nat.leb_le, Nat.eqb_neq in P. lia.
  - pose proof (nat_ascii_bounded c) as B. change (nat_of_ascii c) with (code c) in *.
    assert (H1 : code c / 16 < 16) by (apply Nat.div_lt_upper_bound; lia). assert (H2 : code c mod 16 < 16) by (apply Nat.mod_upper_bound; lia).
    assert (G : forall n, n < 16 -> exists x, hex n = String x "" /\ String.get n hex_digits = Some x) by (intros n Hn; do 16 (destruct n as [|n]; [eexists; split; reflexivity|]); lia).
    destruct (G _ H1) as (x & Ex & Gx). destruct (G _ H2) as (y & Ey & Gy). rewrite Ex, Ey. apply (written_hex q c (code c / 16) (code c mod 16)); auto.
    + unfold printable in P. cbv zeta in P. change (nat_of_ascii c) with (code c) in P. rewrite orb_false_iff, !andb_false_iff, negb_false_iff, !Nat.leb_gt, Nat.eqb_eq in P. lia.
    + intros [E|[E|[E|[]]]]; symmetry in E; [apply N3, (K 9)|apply N4, (K 10)|apply N5, (K 13)]; auto; lia.
    + now apply Nat.div_mod.
Qed.
Lemma written_one q c t t' : q = chr 39 \/ q = chr 34 -> Written q c t -> Written q c t' -> t = t'.
Proof.
  intros Hq H H'.
  assert (Q : code q <> 92 /\ code q <> 9 /\ code q <> 10 /\ code q <> 13 /\ 32 <= code q <= 126) by (destruct Hq; subst q; cbn; repeat split; try discriminate; lia).
  inversion H; subst; inversion H'; subst; auto; try lia; try congruence; try (exfalso; cbn [In] in *; lia).
  assert (a = a0 /\ b = b0) as [-> ->] by lia. congruence.
Qed.
(** A text is written between apostrophes, or between double quotation marks if it has apostrophes and none of these. *)
Theorem C65_text : forall s, exists q ts,
  repr_atom (AStr s) = String q "" ++ join "" ts ++ String q "" /\ Forall2 (Written q) (chars s) ts /\
  (In (ascii_of_nat 39) (chars s) /\ ~ In (ascii_of_nat 34) (chars s) -> q = ascii_of_nat 34) /\
  (~ (In (ascii_of_nat 39) (chars s) /\ ~ In (ascii_of_nat 34) (chars s)) -> q = ascii_of_nat 39) /\
  (forall ts', Forall2 (Written q) (chars s) ts' -> ts' = ts).
Proof.
  intros s. cbn [repr_atom]. unfold repr_str. set (q := if _ && _ then _ else _).
  assert (I : forall a, contains (String a "") s = true <-> In a (chars s)).
  { intros a. induction s as [|c s IH]; [cbn; split; [discriminate|intros []]|]. cbn [contains startswith chars In]. rewrite orb_true_iff, IH, andb_true_r. rewrite Ascii.eqb_eq. split; intros [E|E]; auto. }
  assert (Hq : q = chr 39 \/ q = chr 34) by (unfold q; destruct (_ && _); auto).
  assert (E : repr_chars q s = join "" (map (repr_char q) (chars s)) /\ Forall2 (Written q) (chars s) (map (repr_char q) (chars s))).
  { clear I. clearbody q. induction s as [|c s [IH1 IH2]]; [split; [reflexivity|constructor]|]. split; [|cbn [chars map]; constructor; auto using repr_char_written].
    cbn [chars map repr_chars]. rewrite IH1. destruct (map (repr_char q) (chars s)); [cbn [join]; now rewrite app_nil_r_s|reflexivity]. }
  exists q, (map (repr_char q) (chars s)). destruct E as [E F]. rewrite E. split; [reflexivity|]. split; [exact F|]. split; [|split].
  - intros [A N]. unfold q. change (ascii_of_nat 39) with (chr 39) in A. change (ascii_of_nat 34) with (chr 34) in N. rewrite (proj2 (I _) A). rewrite <- I in N. now destruct (contains (String (chr 34) "") s).
  - intros N. unfold q. destruct (contains (String (chr 39) "") s) eqn:A; [|reflexivity]. destruct (contains (String (chr 34) "") s) eqn:A'; [reflexivity|].
    exfalso. apply N. split; [now apply I|]. change (ascii_of_nat 34) with (chr 34). rewrite <- I. congruence.
  - clear E I. clearbody q. intros ts' F'. revert ts' F'. induction F; intros ts' F'; inversion F'; subst; auto. f_equal; [eapply written_one; eauto|auto].
Qed.
Print Assumptions C65_text.
Example C65_text_example : repr_atom (AStr (String (ascii_of_nat 233) (String (ascii_of_nat 161) (String (ascii_of_nat 160) "it's")))) =
  String (ascii_of_nat 34) (String (ascii_of_nat 233) (String (ascii_of_nat 161) ("\xa0it's" ++ String (ascii_of_nat 34) ""))).
Proof. vm_compute. reflexivity. Qed.

(** ** C80: the class that is shown for a value (the subclasses of DataTypeTree) *)
Inductive Handled : pyval -> string -> Prop :=
  | handled_str : forall s, Handled (VStr s) "InstanceDataTypeTree"
  | handled_inst : forall t, Handled (VInst t) "InstanceDataTypeTree"
  | handled_fun : forall f, Handled (VFun f) "FunctionDataTypeTree"
  | handled_class : forall t n, Handled (VClass t n) "TypeDataTypeTree"
  | handled_module : forall t, Handled (VModule t) "ModuleTypeDataTypeTree"
  | handled_io : forall t, Handled (VIO t) "IoDataTypeTree"
  | handled_numpy : forall t d, Handled (VNdarray t d) "NumpyDataTypeTree"
  | handled_list : forall t l, Handled (VSeq KList t l) "ListDataTypeTree"
  | handled_tuple : forall t l, Handled (VSeq KTuple t l) "TupleDataTypeTree"
  | handled_set : forall t l, Handled (VSeq KSet t l) "SetDataTypeTree"
  | handled_iter : forall t l, Handled (VSeq KIter t l) "IteratorDataTypeTree"
  | handled_series : forall t l, Handled (VSeq KSeries t l) "PandasSeriesDataTypeTree"
  | handled_proxy : forall t l, Handled (VMap MProxy t l) "MappingProxyDataTypeTree"
  | handled_dict : forall t l, Handled (VMap MDict t l) "DictDataTypeTree".
Theorem C80_classes : forall s ord v n t recursive, from_data s ord v n = Ok t ->
  exists c rest, Handled v c /\ print_all_children recursive t = (c ++ "-" ++ n) :: rest.
Proof.
  intros s ord v n t r H. unfold from_data in H. destruct (is_compatible n) eqn:C; [|discriminate].
  assert (K : forall t, i_depth (ti t) = 0 -> exists rest, print_all_children r t = (class_name (tkind t) ++ "-" ++ tname t) :: rest).
  { clear. intros [i cs] D. rewrite print_node. cbn [ti] in D. rewrite D. eexists. reflexivity. }
  assert (G : i_depth (ti t) = 0 /\ tname t = n /\ Handled v (class_name (tkind t))).
  { destruct v as [x|ty|f|m x|ty|ty|ty d|k ty l|k ty kvs]; cbn [build] in H; unfold leaf in H; rewrite ?C in H; try (injection H as <-; repeat split; constructor).
    - cbn [negb] in H. match type of H with bind ?x _ = _ => destruct x as [cs| |]; try discriminate end. injection H as <-. repeat split. destruct k; constructor.
    - destruct k; cbn [negb] in H.
      + match type of H with bind ?x _ = _ => destruct x as [cs| |]; try discriminate end. injection H as <-. repeat split. constructor.
      + match type of H with bind ?x _ = _ => destruct x as [cs| |]; try discriminate end. injection H as <-. repeat split. constructor. }
  destruct G as (D & N & Hc). destruct (K t D) as (rest & E). exists (class_name (tkind t)), rest. rewrite E, N. auto.
Qed.
Print Assumptions C80_classes.
Example C80_classes_example : exists t, from_data default_strategies as_inserted team "Team" = Ok t /\ exists rest, print_all_children false t = "DictDataTypeTree-Team" :: rest.
Proof. eexists. split; [vm_compute; reflexivity|]. eexists. vm_compute. reflexivity. Qed.

(** ** C84: the messages *)
Theorem C84_messages : forall W (shell : W -> string -> W * outcome) dir file c w h f s w' h' ev,
  f_auto_linting f = Some s -> main shell dir file c w h f = (w', h', ev, Returns) ->
  (s <> "" /\ occurs "enable" (PyStr.lower s) ->
     (exists old, h = Some (Some old) /\ ev = [Print "An automatic auto-run of this script is already set up."]) \/
     (h = Some None /\ ev = [Print (green "Auto run enabled!" ++ " Whenever you push to the online repo, code will be first checked.")])) /\
  (~ (s <> "" /\ occurs "enable" (PyStr.lower s)) ->
     ev = [Print (green "Auto run removed!" ++ " No code verification will be done before pushin to online repo.")]).
Proof.
  intros W shell dir file c w h f s w' h' ev E H. unfold main, parse_args in H. rewrite E in H.
  set (both := negb (String.eqb (f_single_tool f) "") && match f_only_run_tools f with [] => false | _ => true end) in H.
  destruct (String.eqb_spec s "") as [->|NS].
  - cbn [andthen] in H. destruct both; [discriminate|]. cbn [a_auto_linting] in H. split; [intros [X _]; congruence|]. intros _. cbn in H. injection H as _ _ <-. reflexivity.
  - destruct (contains "enable" (PyStr.lower s)) eqn:C1; [apply occurs_contains in C1|apply occurs_not in C1].
    + cbn [andthen] in H. destruct both; [discriminate|]. cbn [a_auto_linting] in H. split; [intros _|intros X; exfalso; tauto].
      destruct h as [[old|]|]; cbn [setup_auto_run] in H; [| |discriminate].
      * left. exists old. injection H as _ _ <-. auto.
      * right. injection H as _ _ <-. auto.
    + split; [intros [_ X]; contradiction|intros _]. destruct (contains "disable" (PyStr.lower s)) eqn:C2; cbn [andthen] in H; [|discriminate].
      destruct both; [discriminate|]. cbn [a_auto_linting] in H. cbn in H. injection H as _ _ <-. reflexivity.
Qed.
Print Assumptions C84_messages.
Example C84_messages_example : exists h' ev,
  main failing "/dir" "check_code.py" NoList tt (Some None) (Flags (Some "enable") false [] "" false) = (tt, h', ev, Returns) /\ h' <> Some None.
Proof. do 2 eexists. split; [vm_compute; reflexivity|discriminate]. Qed.
