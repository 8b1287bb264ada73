(** The stub of [LazyTypeHintLive] keeps its shape: registration, reading back, calls. *)
From Coq Require Import Ascii String List Bool Arith ZArith Lia Permutation.
From Verif Require Import PyStr PyStrFacts Utils NamesFacts DocstringFacts Exc SpecNames SpecText SpecPyFile
  YamlFacts YamlLines YamlEntries PyFile PyFileFacts PyFilePrivate Live SpecLive LiveText LiveMethods LiveBlocks.
Import ListNotations.
Local Open Scope string_scope.
Local Open Scope nat_scope.

Notation names_ok cs := (Forall (fun c => is_compatible c = true) cs).

Section Shape.
  Variable t : template.
  Hypothesis Ht : well_formed t = true.

  (** The lines of an object. *)
  Definition Shape (imports cs ys ds ls : list string) : Prop :=
    exists BY BD tail,
      Block "from_yaml_file" (t_yaml t) ys BY /\ Block "from_data" (t_data t) ds BD /\
      (exists e, t_tail t = (tail ++ e)%list /\ Forall (fun l => l = "") e) /\
      names_ok imports /\ names_ok cs /\
      ls = (map import_line imports ++ t_head t ++ [registry t cs] ++ t_mid1 t ++ BY ++ t_mid2 t ++ BD ++ tail)%list.

  Lemma wf_parts :
    Forall (fun l => neutral l = true) (t_head t) /\ Forall (fun l => neutral l = true) (t_mid1 t) /\
    Forall (fun l => neutral l = true) (t_mid2 t) /\ Forall (fun l => neutral l = true) (t_tail t) /\
    (t_mid1 t <> [] /\ contains "@" (last (t_mid1 t) "") = false) /\ (t_mid2 t <> [] /\ contains "@" (last (t_mid2 t) "") = false) /\
    str_forall (fun c => Nat.eqb (ord c) 32) (t_indent t) = true /\ one_line (t_type t) = true /\
    good_method "from_yaml_file" (t_yaml t) = true /\ good_method "from_data" (t_data t) = true.
  Proof.
    pose proof Ht as H. unfold well_formed in H. rewrite !andb_true_iff in H. destruct H as ((((((H1 & H2) & H3) & H4) & H5) & H6) & H7).
    rewrite !forallb_app, !andb_true_iff, !forallb_forall in H1.
    assert (G : forall ls, ends_gap ls = true -> ls <> [] /\ contains "@" (last ls "") = false).
    { intros ls G. unfold ends_gap in G. destruct ls as [|x ls] using rev_ind; [discriminate|]. split; [destruct ls; discriminate|].
      rewrite rev_app_distr in G. cbn in G. rewrite last_snoc. unfold no_at in G. now apply negb_true_iff in G. }
    rewrite !Forall_forall. split; [apply H1|]. split; [apply H1|]. split; [apply H1|]. split; [apply H1|].
    split; [now apply G|]. split; [now apply G|]. auto.
  Qed.

  Lemma neutral_parts l : neutral l = true ->
    one_line l = true /\ assigns "classes_created" l = Val false /\ (forall n, method_name n -> defines n l = Val false).
  Proof.
    unfold neutral. rewrite !andb_true_iff, !negb_true_iff. intros ((((A & B) & C) & D) & _). split; [exact A|]. split; [now apply not_assigned_contains|].
    intros n [-> | ->]; unfold defines; [change ("def " ++ "from_data") with "def from_data"; now rewrite C | change ("def " ++ "from_yaml_file") with "def from_yaml_file"; now rewrite D].
  Qed.

  Lemma import_line_parts c : is_compatible c = true ->
    one_line (import_line c) = true /\ assigns "classes_created" (import_line c) = Val false /\ (forall n, method_name n -> defines n (import_line c) = Val false).
  Proof.
    intros Hc. split; [|split].
    - unfold import_line. rewrite !one_line_app, (name_one_line c Hc). reflexivity.
    - unfold assigns. destruct (contains "=" (import_line c)) eqn:E; [|now rewrite andb_false_r].
      exfalso. apply contains_eq in E. revert E. apply no_char_chars. unfold import_line. rewrite !no_char_app.
      assert (N : no_char equals_sign c) by (now apply name_no). repeat split; auto.
    - intros n _. apply (defines_not n "" "f" ("rom lazy_type_hint.generators.build." ++ c ++ " import " ++ c)); [reflexivity | reflexivity | discriminate].
  Qed.

  Lemma registry_defines cs n : defines n (registry t cs) = Val false.
  Proof.
    unfold registry. apply (defines_not n (t_indent t) "c" ("lasses_created" ++ t_type t ++ "=" ++ registry_value cs)); [|reflexivity | discriminate].
    destruct wf_parts as (_ & _ & _ & _ & _ & _ & I & _). eapply str_forall_impl; [|exact I]. cbn. intros c Hc. apply Nat.eqb_eq in Hc.
    unfold is_space. rewrite Hc. reflexivity.
  Qed.

  (** ** Searching in a whole stub *)
  Lemma all_neutral {P : string -> Prop} ls : (forall l, neutral l = true -> P l) -> Forall (fun l => neutral l = true) ls -> Forall P ls.
  Proof. intros H. apply Forall_impl. exact H. Qed.
  Lemma tail_neutral tail e : t_tail t = (tail ++ e)%list -> Forall (fun l => neutral l = true) tail.
  Proof. intros E. destruct wf_parts as (_ & _ & _ & H & _). rewrite E in H. now apply Forall_app in H. Qed.

  Lemma imports_all {P : string -> Prop} imports : (forall c, is_compatible c = true -> P (import_line c)) -> names_ok imports -> Forall P (map import_line imports).
  Proof. intros H HI. apply Forall_map. eapply Forall_impl; [|exact HI]. exact H. Qed.

  Lemma yaml_name : method_name "from_yaml_file". Proof. now right. Qed.
  Lemma data_name : method_name "from_data". Proof. now left. Qed.

  Lemma Shape_assigns imports cs ys ds ls : Shape imports cs ys ds ls ->
    exists a b, ls = (a ++ registry t cs :: b)%list /\
      Forall (fun l => assigns "classes_created" l = Val false) a /\ Forall (fun l => assigns "classes_created" l = Val false) b /\
      (forall cs', names_ok cs' -> Shape imports cs' ys ds (a ++ registry t cs' :: b)%list).
  Proof.
    intros (BY & BD & tail & HY & HD & (e & E & He) & HI & HC & ->). destruct wf_parts as (W1 & W2 & W3 & W4 & _ & _ & _ & _ & GY & GD).
    exists (map import_line imports ++ t_head t)%list, (t_mid1 t ++ BY ++ t_mid2 t ++ BD ++ tail)%list.
    split; [now rewrite <- app_assoc|].
    assert (N : forall l, neutral l = true -> assigns "classes_created" l = Val false) by (intros l Hl; now apply neutral_parts).
    split; [|split].
    - apply Forall_app. split; [apply imports_all; [|exact HI]; intros c Hc; now apply import_line_parts|]. eapply all_neutral; eauto.
    - rewrite !Forall_app. split; [eapply all_neutral; eauto|]. split; [exact (Block_assigns _ _ GY _ _ HY)|].
      split; [eapply all_neutral; eauto|]. split; [exact (Block_assigns _ _ GD _ _ HD)|].
      eapply all_neutral; [exact N|]. eapply tail_neutral; eauto.
    - intros cs' HC'. exists BY, BD, tail. split; [exact HY|]. split; [exact HD|]. split; [now exists e|]. split; [exact HI|]. split; [exact HC'|]. now rewrite <- app_assoc.
  Qed.

  Lemma Shape_names imports cs ys ds ls : Shape imports cs ys ds ls -> names_ok cs.
  Proof. intros (BY & BD & tail & _ & _ & _ & _ & H & _). exact H. Qed.

  Lemma Shape_search imports cs ys ds ls : Shape imports cs ys ds ls ->
    exists i, search_assignment "classes_created" ls = Val [(i, clean_value cs)].
  Proof.
    intros H. pose proof (Shape_names _ _ _ _ _ H) as HC. destruct (Shape_assigns _ _ _ _ _ H) as (a & b & -> & Ha & Hb & _).
    eexists. unfold search_assignment. apply search_one_conv; auto.
    - apply registry_mentions. apply wf_parts.
    - now apply assigned_registry.
  Qed.

  Lemma Shape_registered imports cs ys ds ls : Shape imports cs ys ds ls -> registered ls = Val cs.
  Proof.
    intros H. pose proof (Shape_names _ _ _ _ _ H) as HC. destruct (Shape_search _ _ _ _ _ H) as [i E]. unfold registered. rewrite E. cbn [andthen].
    f_equal. now apply registered_value.
  Qed.

  (** ** Registration, one change after the other *)
  Definition wrote (s : state) (l : list string) : state :=
    State l (apply_write (s_disk s) (WStub (py_str l))) (s_log s ++ [WStub (py_str l)])%list.

  Lemma add_class_created_shape imports cs ys ds s c : Shape imports cs ys ds (s_lines s) -> is_compatible c = true ->
    exists l, add_class_created c s = (Val tt, wrote s l) /\ Shape imports (cs ++ [c]) ys ds l.
  Proof.
    intros H Hc. pose proof (Shape_names _ _ _ _ _ H) as HC. destruct (Shape_search _ _ _ _ _ H) as [i E].
    destruct (Shape_assigns _ _ _ _ _ H) as (a & b & El & Ha & Hb & HS).
    assert (NE : clean_value cs <> "") by (destruct cs; discriminate).
    exists (a ++ registry t (cs ++ [c]) :: b)%list. split.
    - unfold add_class_created, mbind, query. rewrite E. destruct (clean_value cs) as [|v0 v] eqn:EV; [congruence|]. rewrite <- EV.
      unfold modify. rewrite El. rewrite (replace_assignment_one "classes_created" _ a (registry t cs) b (clean_value cs)); auto.
      + rewrite with_value_registry by assumption. rewrite new_value_registry by assumption. reflexivity.
      + apply registry_mentions. apply wf_parts.
      + now apply assigned_registry.
    - apply HS. apply Forall_app. split; [exact HC | now constructor].
  Qed.

  Lemma add_import_shape imports cs ys ds s c : Shape imports cs ys ds (s_lines s) -> is_compatible c = true ->
    exists l, add_import c s = (Val tt, wrote s l) /\ Shape (c :: imports) cs ys ds l.
  Proof.
    intros (BY & BD & tail & HY & HD & HT & HI & HC & E) Hc. exists (import_line c :: s_lines s). split; [reflexivity|].
    exists BY, BD, tail. split; [exact HY|]. split; [exact HD|]. split; [exact HT|]. split; [now constructor|]. split; [exact HC|]. now rewrite E.
  Qed.

  Lemma add_data_shape imports cs ys ds s c : Shape imports cs ys ds (s_lines s) -> is_compatible c = true ->
    exists l, add_overload "from_data" c s = (Val tt, wrote s l) /\ Shape imports cs ys (c :: ds) l.
  Proof.
    intros (BY & BD & tail & HY & HD & (e & E & He) & HI & HC & El) Hc.
    destruct wf_parts as (W1 & W2 & W3 & W4 & (N1 & L1) & (N2 & L2) & _ & _ & GY & GD).
    assert (N : forall l, neutral l = true -> defines "from_data" l = Val false) by (intros l Hl; apply neutral_parts; [exact Hl | exact data_name]).
    set (L := (map import_line imports ++ t_head t ++ [registry t cs] ++ t_mid1 t ++ BY ++ t_mid2 t)%list).
    assert (EL : s_lines s = (L ++ BD ++ tail)%list) by (rewrite El; unfold L; now rewrite <- !app_assoc).
    destruct (add_overload_block "from_data" (t_data t) data_name GD L tail ds BD c) as (l1 & B' & E1 & E2 & HB'); auto.
    - unfold L. intros X. apply app_eq_nil in X as [_ X]. apply app_eq_nil in X as [_ X]. discriminate.
    - unfold L. rewrite !app_assoc. destruct (exists_last N2) as (x & y & EM). rewrite EM in *. rewrite app_assoc, last_snoc. now rewrite last_snoc in L2.
    - unfold L. rewrite !Forall_app. split; [apply imports_all; [|exact HI]; intros x Hx; apply import_line_parts; [exact Hx | exact data_name]|].
      split; [eapply all_neutral; eauto|]. split; [constructor; [apply registry_defines | constructor]|]. split; [eapply all_neutral; eauto|].
      split; [exact (Block_other _ _ yaml_name GY _ _ _ HY data_name ltac:(discriminate)) | eapply all_neutral; eauto].
    - eapply all_neutral; [exact N|]. eapply tail_neutral; eauto.
    - exists (L ++ B' ++ tail)%list. split.
      + unfold add_overload, mbind, modify. rewrite EL, E1. cbn [s_lines]. rewrite E2. reflexivity.
      + exists BY, B', tail. split; [exact HY|]. split; [exact HB'|]. split; [now exists e|]. split; [exact HI|]. split; [exact HC|].
        unfold L. now rewrite <- !app_assoc.
  Qed.

  Lemma add_yaml_shape imports cs ys ds s c : Shape imports cs ys ds (s_lines s) -> is_compatible c = true ->
    exists l, add_overload "from_yaml_file" c s = (Val tt, wrote s l) /\ Shape imports cs (c :: ys) ds l.
  Proof.
    intros (BY & BD & tail & HY & HD & (e & E & He) & HI & HC & El) Hc.
    destruct wf_parts as (W1 & W2 & W3 & W4 & (N1 & L1) & (N2 & L2) & _ & _ & GY & GD).
    assert (N : forall l, neutral l = true -> defines "from_yaml_file" l = Val false) by (intros l Hl; apply neutral_parts; [exact Hl | exact yaml_name]).
    set (L := (map import_line imports ++ t_head t ++ [registry t cs] ++ t_mid1 t)%list).
    assert (EL : s_lines s = (L ++ BY ++ (t_mid2 t ++ BD ++ tail))%list) by (rewrite El; unfold L; now rewrite <- !app_assoc).
    destruct (add_overload_block "from_yaml_file" (t_yaml t) yaml_name GY L (t_mid2 t ++ BD ++ tail)%list ys BY c) as (l1 & B' & E1 & E2 & HB'); auto.
    - unfold L. intros X. apply app_eq_nil in X as [_ X]. apply app_eq_nil in X as [_ X]. discriminate.
    - unfold L. rewrite !app_assoc. destruct (exists_last N1) as (x & y & EM). rewrite EM in *. rewrite app_assoc, last_snoc. now rewrite last_snoc in L1.
    - unfold L. rewrite !Forall_app. split; [apply imports_all; [|exact HI]; intros x Hx; apply import_line_parts; [exact Hx | exact yaml_name]|].
      split; [eapply all_neutral; eauto|]. split; [constructor; [apply registry_defines | constructor]|]. eapply all_neutral; eauto.
    - rewrite !Forall_app. split; [eapply all_neutral; eauto|].
      split; [exact (Block_other _ _ data_name GD _ _ _ HD yaml_name ltac:(discriminate))|].
      eapply all_neutral; [exact N|]. eapply tail_neutral; eauto.
    - exists (L ++ B' ++ (t_mid2 t ++ BD ++ tail))%list. split.
      + unfold add_overload, mbind, modify. rewrite EL, E1. cbn [s_lines]. rewrite E2. reflexivity.
      + exists B', BD, tail. split; [exact HB'|]. split; [exact HD|]. split; [now exists e|]. split; [exact HI|]. split; [exact HC|].
        unfold L. now rewrite <- !app_assoc.
  Qed.

  (** All four writes of a registration. *)
  Lemma add_new_class_shape imports cs ys ds s c : Shape imports cs ys ds (s_lines s) -> is_compatible c = true ->
    exists l1 l2 l3 l4,
      Shape imports (cs ++ [c]) ys ds l1 /\ Shape (c :: imports) (cs ++ [c]) ys ds l2 /\
      Shape (c :: imports) (cs ++ [c]) ys (c :: ds) l3 /\ Shape (c :: imports) (cs ++ [c]) (c :: ys) (c :: ds) l4 /\
      add_new_class c s = (Val tt, State l4 (Disk (Some (py_str l4)) (d_build (s_disk s)))
        (s_log s ++ [WStub (py_str l1); WStub (py_str l2); WStub (py_str l3); WStub (py_str l4)])%list).
  Proof.
    intros H Hc. unfold add_new_class, mbind.
    destruct (add_class_created_shape _ _ _ _ s c H Hc) as (l1 & -> & H1).
    destruct (add_import_shape _ _ _ _ (wrote s l1) c H1 Hc) as (l2 & -> & H2).
    destruct (add_data_shape _ _ _ _ (wrote (wrote s l1) l2) c H2 Hc) as (l3 & -> & H3).
    destruct (add_yaml_shape _ _ _ _ (wrote (wrote (wrote s l1) l2) l3) c H3 Hc) as (l4 & -> & H4).
    exists l1, l2, l3, l4. repeat (split; [assumption|]). unfold wrote. cbn [s_lines s_disk s_log apply_write d_build d_stub]. rewrite <- !app_assoc. reflexivity.
  Qed.

  (** ** Reading the stub *)
  Lemma drop_last_empty_app a b : b <> [] -> drop_last_empty (a ++ b)%list = (a ++ drop_last_empty b)%list.
  Proof.
    intros Hb. destruct (exists_last Hb) as (x & y & ->). unfold drop_last_empty. rewrite app_assoc, !rev_app_distr. cbn [rev app].
    destruct y; [|now rewrite <- app_assoc]. now rewrite rev_app_distr, !rev_involutive.
  Qed.

  Lemma Shape_reread imports cs ys ds ls : Shape imports cs ys ds ls ->
    Stub t imports cs ys ds (py_read (universal (py_str ls))) /\ names_ok imports /\ names_ok cs /\ names_ok ys /\ names_ok ds.
  Proof.
    intros (BY & BD & tail & HY & HD & (e & E & He) & HI & HC & ->).
    destruct wf_parts as (W1 & W2 & W3 & W4 & _ & _ & I & T & GY & GD).
    destruct (flat_Block _ _ yaml_name GY _ _ HY) as [PY CY]. destruct (flat_Block _ _ data_name GD _ _ HD) as [PD CD].
    assert (N : forall l, neutral l = true -> one_line l = true) by (intros l Hl; now apply neutral_parts).
    pose proof (tail_neutral tail e E) as WT.
    assert (OI : Forall (fun l => one_line l = true) (map import_line imports)) by (apply imports_all; [|exact HI]; intros c Hc; now apply import_line_parts).
    assert (OR : one_line (registry t cs) = true).
    { unfold registry. rewrite !one_line_app, T, (registry_one_line cs HC). rewrite !andb_true_r. cbn [andb].
      eapply str_forall_impl; [|exact I]. cbn. intros c Hc. apply Nat.eqb_eq in Hc. unfold is_linebreak. rewrite Hc. reflexivity. }
    assert (F : flat (map import_line imports ++ t_head t ++ [registry t cs] ++ t_mid1 t ++ BY ++ t_mid2 t ++ BD ++ tail)%list =
      (map import_line imports ++ t_head t ++ [registry t cs] ++ t_mid1 t ++ flat BY ++ t_mid2 t ++ flat BD ++ tail)%list).
    { rewrite !flat_app. rewrite (flat_lines (map import_line imports)), (flat_lines (t_head t)), (flat_lines [registry t cs]),
        (flat_lines (t_mid1 t)), (flat_lines (t_mid2 t)), (flat_lines tail); auto; eapply all_neutral; eauto. }
    split; [|auto]. rewrite reread.
    - rewrite F.
      assert (ND : flat BD <> []). { destruct PD as (? & ? & ? & _ & _ & _ & ->). intros X. apply app_eq_nil in X as [_ X]. apply app_eq_nil in X as [_ X]. discriminate. }
      assert (NT : (flat BD ++ tail)%list <> []) by (intros X; apply app_eq_nil in X; tauto).
      replace (map import_line imports ++ t_head t ++ [registry t cs] ++ t_mid1 t ++ flat BY ++ t_mid2 t ++ flat BD ++ tail)%list
        with ((map import_line imports ++ t_head t ++ [registry t cs] ++ t_mid1 t ++ flat BY ++ t_mid2 t) ++ (flat BD ++ tail))%list by (now rewrite <- !app_assoc).
      rewrite drop_last_empty_app by exact NT.
      assert (D : exists tail', drop_last_empty (flat BD ++ tail)%list = (flat BD ++ tail')%list /\ exists e', t_tail t = (tail' ++ e')%list /\ Forall (fun l => l = "") e').
      { destruct tail as [|x tail] using rev_ind.
        - exists []. rewrite !app_nil_r. split; [|now exists e]. destruct PD as (cs' & over & k & _ & _ & _ & ->).
          replace (over ++ repeat overload_line k ++ [override_line; plain_def "from_data" (t_data t)])%list
            with ((over ++ repeat overload_line k ++ [override_line]) ++ [plain_def "from_data" (t_data t)])%list by (now rewrite <- !app_assoc).
          unfold drop_last_empty. rewrite rev_app_distr. reflexivity.
        - rewrite app_assoc. unfold drop_last_empty. rewrite rev_app_distr. cbn [rev app]. destruct x as [|c x].
          + exists tail. rewrite rev_involutive. split; [reflexivity|]. exists ("" :: e). rewrite E, <- app_assoc. split; [reflexivity | now constructor].
          + exists (tail ++ [String c x])%list. rewrite <- app_assoc. split; [reflexivity | now exists e]. }
      destruct D as (tail' & -> & HT'). exists (flat BY), (flat BD), tail'. split; [exact PY|]. split; [exact PD|]. split; [exact HT'|]. now rewrite <- !app_assoc.
    - rewrite F, !Forall_app. repeat split; auto; try (eapply all_neutral; eassumption).
      + exact (part_one_line _ _ yaml_name GY _ _ PY CY).
      + exact (part_one_line _ _ data_name GD _ _ PD CD).
  Qed.

  Lemma Stub_Shape imports cs ys ds ls : Stub t imports cs ys ds ls -> names_ok imports -> names_ok cs -> names_ok ys -> names_ok ds ->
    Shape imports cs ys ds ls.
  Proof.
    intros (py & pd & tail & PY & PD & HT & ->) HI HC HY HD. destruct wf_parts as (_ & _ & _ & _ & _ & _ & _ & _ & GY & GD).
    exists py, pd, tail. split; [now apply Block_of_part|]. split; [now apply Block_of_part|]. auto.
  Qed.
  Lemma reread_Shape imports cs ys ds ls : Shape imports cs ys ds ls -> Shape imports cs ys ds (py_read (universal (py_str ls))).
  Proof. intros H. destruct (Shape_reread _ _ _ _ _ H) as (A & B & C & D & E). now apply Stub_Shape. Qed.

  Lemma template_Shape : Shape [] [] [] [] (template_lines t).
  Proof.
    exists [override_line; plain_def "from_yaml_file" (t_yaml t)], [override_line; plain_def "from_data" (t_data t)], (t_tail t).
    assert (B : forall n m, Block n m [] [override_line; plain_def n m]).
    { intros n m. exists [], [], 0, [], [override_line; plain_def n m]. split; [constructor|]. split; [constructor|]. split; [constructor|]. split; [exact (Mem0 n m 0)|]. split; [now left | reflexivity]. }
    split; [apply B|]. split; [apply B|]. split; [exists []; rewrite app_nil_r; auto|]. split; [constructor|]. split; [constructor|]. reflexivity.
  Qed.
End Shape.
