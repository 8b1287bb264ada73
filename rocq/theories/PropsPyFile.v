(** Property theorems about [PyFileModifier]. *)
From Coq Require Import Ascii String List Bool Arith ZArith Lia.
From Verif Require Import PyStr PyStrFacts Exc SpecNames SpecText SpecPyFile DocstringFacts NamesFacts
  YamlFacts YamlLines YamlEntries PyFile PyFileFacts PyFilePrivate.
Import ListNotations.
Local Open Scope string_scope.
Local Open Scope nat_scope.

(** ** C44: replacing the value of an assignment.

    As stated the property is false: the code looks for the label anywhere in the line, also in the
    value, and it splits the line at its last "=". *)
Theorem C44_label_in_value_refuted :
  exists lines label v lines',
    replace_assignment label v lines = Val lines' /\
    search_assignment label lines' = Val [] /\ search_assignment label lines = Val [(0, label)].
Proof. exists ["x = foo"], "foo", "1", ["x =1"]. repeat split; vm_compute; reflexivity. Qed.
Print Assumptions C44_label_in_value_refuted.

Theorem C44_value_with_equals_refuted :
  exists lines v lines',
    replace_assignment "x" v lines = Val lines' /\ search_assignment "x" lines' = Val [(0, "b")].
Proof. exists ["x = 1"], "a == b", ["x =a == b"]. split; vm_compute; reflexivity. Qed.
Print Assumptions C44_value_with_equals_refuted.

(** A line is replaced in place: everything up to its last "=" is kept, and all other lines are. *)
Theorem C44_frame_partial : forall label v lines lines',
  replace_assignment label v lines = Val lines' ->
  exists a b line p old,
    lines = (a ++ line :: b)%list /\ lines' = (a ++ (p ++ "=" ++ v)%string :: b)%list /\
    SplitAtLast line p old /\
    (label <> "" -> Mentions label line /\ Forall (fun l => ~ Mentions label l) (a ++ b)).
Proof.
  intros label v lines lines' H. destruct (replace_assignment_inv _ _ _ _ H) as (a & l & b & w & -> & -> & Ha & Hb & A & V).
  destruct (with_value_spec l v (assigns_has_eq _ _ A)) as (p & old & Hs & _ & ->).
  exists a, b, l, p, old. do 2 (split; [reflexivity|]). split; [exact Hs|]. intros Hl. split.
  - apply assigns_true; [assumption | exact A].
  - apply Forall_app. split; (eapply Forall_impl; [|eassumption]); intros x Hx; now apply assigns_false.
Qed.
Print Assumptions C44_frame_partial.

(** The new value is found again, stripped and unquoted, when it has no "=" and is not blank and when the
    label stands in front of the last "=" of its line. *)
Theorem C44_found_again_partial : forall label v lines lines',
  label <> "" -> replace_assignment label v lines = Val lines' ->
  ~ In equals_sign (chars v) -> ~ blank v ->
  (forall line p old, In line lines -> Mentions label line -> SplitAtLast line p old ->
     exists x y, p = x ++ label ++ y /\ Forall (fun c => ~ quote_mark c) (chars x)) ->
  exists i w, search_assignment label lines' = Val [(i, w)] /\ Clean v w.
Proof.
  intros label v lines lines' Hl H Hv Hb Hp. destruct (replace_assignment_inv _ _ _ _ H) as (a & l & b & w & -> & -> & Ha & Hb' & A & V).
  destruct (with_value_spec l v (assigns_has_eq _ _ A)) as (p & old & Hs & _ & E).
  destruct (Hp l p old) as (x & y & -> & Hx); [apply in_or_app; right; now left | now apply assigns_true | exact Hs |].
  assert (C : contains "=" (with_value l v) = true).
  { rewrite E. apply contains_eq. rewrite chars_str_In, !str_In_app. right; left. now left. }
  assert (A' : assigns label (with_value l v) = Val true).
  { apply assigns_true; [exact Hl|]. split; [now apply contains_eq|]. rewrite E. exists x, (y ++ "=" ++ v). split; [now rewrite !app_assoc_s | exact Hx]. }
  assert (F : last_field (with_value l v) = v) by (rewrite E; now apply last_field_spec).
  destruct (assigned_value_spec _ C) as [[B _] | (w' & V' & K)]; [rewrite F in B; contradiction|].
  rewrite F in K. exists (0 + List.length a), w'. split; [|exact K].
  unfold search_assignment. now apply search_one_conv.
Qed.
Print Assumptions C44_found_again_partial.

(** Zero or several assignments are refused. *)
Theorem C44_refuses_partial : forall label v lines,
  label <> "" ->
  (Forall (fun l => ~ Mentions label l) lines -> replace_assignment label v lines = Raise ValueError) /\
  (forall a l1 b l2 c, lines = (a ++ l1 :: b ++ l2 :: c)%list -> Mentions label l1 -> Mentions label l2 ->
     (forall l p old, In l lines -> Mentions label l -> SplitAtLast l p old -> ~ blank old) ->
     replace_assignment label v lines = Raise ValueError).
Proof.
  intros label v lines Hl. split.
  - intros H. unfold replace_assignment, search_assignment. rewrite (proj2 (search_nil label lines 0)); [reflexivity|].
    eapply Forall_impl; [|exact H]. intros l Hm. now apply assigns_false.
  - intros a l1 b l2 c E M1 M2 Hn. unfold replace_assignment, search_assignment.
    destruct (search_all label lines 0 Hl Hn) as (found & -> & F). cbn [andthen].
    assert (2 <= List.length found).
    { apply (f_equal (@List.length nat)) in F. rewrite !map_length in F. rewrite F. subst lines.
      clear F Hn. rewrite app_length, seq_app.
      assert (CA : forall (x y : list string) k n, combine (x ++ y) (seq k (List.length x) ++ seq (k + List.length x) n) =
                    (combine x (seq k (List.length x)) ++ combine y (seq (k + List.length x) n))%list).
      { induction x as [|z x IH]; intros y k n; cbn [app List.length seq combine]; [now rewrite Nat.add_0_r|].
        f_equal. specialize (IH y (S k) n). replace (S k + List.length x) with (k + S (List.length x)) in IH by lia. exact IH. }
      rewrite CA, filter_app, app_length. cbn [List.length seq combine filter fst].
      apply assigns_true in M1; [|exact Hl]. apply assigns_true in M2; [|exact Hl]. rewrite M1. cbn [List.length].
      rewrite app_length, seq_app, CA, filter_app, app_length. cbn [List.length seq combine filter fst]. rewrite M2. cbn [List.length]. lia. }
    destruct found as [|[i w] [|]]; cbn in H; try lia; reflexivity.
Qed.
Print Assumptions C44_refuses_partial.

Definition c44_lines : list string :=
  ["from typing import Any"; "class A:"; "    classes_created: 'TypeAlias' = Any"; "    y = ""classes_created"""].
Example C44_example :
  replace_assignment "classes_created" " ""Union[A, B]"" " c44_lines =
    Val ["from typing import Any"; "class A:"; "    classes_created: 'TypeAlias' = ""Union[A, B]"" "; "    y = ""classes_created"""] /\
  andthen (replace_assignment "classes_created" " ""Union[A, B]"" " c44_lines) (search_assignment "classes_created") = Val [(2, "Union[A, B]")] /\
  replace_assignment "z" "1" c44_lines = Raise ValueError /\
  replace_assignment "x" "1" ["x = 1"; "x = 2"] = Raise ValueError.
Proof. repeat split; vm_compute; reflexivity. Qed.
(** The hypothesis on the label holds for these lines. *)
Example C44_example_hypothesis : forall line p old,
  In line c44_lines -> Mentions "classes_created" line -> SplitAtLast line p old ->
  exists x y, p = x ++ "classes_created" ++ y /\ Forall (fun c => ~ quote_mark c) (chars x).
Proof.
  intros line p old Hi Hm Hs.
  apply assigns_true in Hm; [|discriminate].
  assert (line = "    classes_created: 'TypeAlias' = Any").
  { cbn [In c44_lines] in Hi. destruct Hi as [<- | [<- | [<- | [<- | []]]]]; vm_compute in Hm; try discriminate Hm; reflexivity. }
  subst line.
  destruct (split_at_last_unique _ _ _ "    classes_created: 'TypeAlias' " " Any" Hs) as [-> ->].
  { split; [reflexivity|]. cbn. intuition discriminate. }
  exists "    ", ": 'TypeAlias' ". split; [reflexivity|]. repeat constructor; intros [E | E]; vm_compute in E; discriminate.
Qed.

(** ** C45: inserting lines *)

(** One line, or a non-empty sequence of lines: the text gets exactly these lines at the place where
    Python's [list.insert] puts an element. *)
Theorem C45_add_lines : forall i new lines, new <> [] ->
  exists a b, lines = (a ++ b)%list /\ List.length a = place (List.length lines) i /\
    add_lines i new lines = (a ++ join nl new :: b)%list /\
    py_str (add_lines i new lines) = py_str (a ++ new ++ b).
Proof.
  intros i new lines Hn. unfold add_lines. destruct (py_insert_place i (join nl new) lines) as (a & b & E & L & ->).
  exists a, b. repeat split; auto. unfold py_str.
  assert (J : join nl (join nl new :: b) = join nl (new ++ b)).
  { destruct b as [|y b]; [now rewrite app_nil_r|]. rewrite join_cons, join_app by (auto; discriminate). reflexivity. }
  destruct a as [|x a]; [exact J|].
  rewrite (join_app nl (x :: a) (join nl new :: b)), (join_app nl (x :: a) (new ++ b)), J; try discriminate; [reflexivity|].
  destruct new; [congruence | discriminate].
Qed.
Print Assumptions C45_add_lines.

Theorem C45_add_line : forall i x lines,
  exists a b, lines = (a ++ b)%list /\ List.length a = place (List.length lines) i /\ add_line i x lines = (a ++ x :: b)%list.
Proof. intros. apply py_insert_place. Qed.
Print Assumptions C45_add_line.

(** For an empty sequence a line is inserted all the same. *)
Theorem C45_empty_sequence_refuted : exists i lines, add_lines i [] lines <> lines /\ py_str (add_lines i [] lines) <> py_str lines.
Proof. exists 1%Z, ["a"; "b"]. split; vm_compute; discriminate. Qed.
Print Assumptions C45_empty_sequence_refuted.

(** Imports go to the top of the file, or below the first line with "if TYPE_CHECKING:", indented; without
    such a line the call fails. *)
Theorem C45_add_imports : forall new lines,
  add_imports new false lines = Val (new ++ lines)%list /\
  ((exists a l b, lines = (a ++ l :: b)%list /\ (exists x y, l = x ++ "if TYPE_CHECKING:" ++ y) /\
      Forall (fun k => ~ exists x y, k = x ++ "if TYPE_CHECKING:" ++ y) a /\
      add_imports new true lines = Val (a ++ l :: map (fun x => ("    " ++ x)%string) new ++ b)%list) \/
   (Forall (fun k => ~ exists x y, k = x ++ "if TYPE_CHECKING:" ++ y) lines /\ add_imports new true lines = Raise ValueError)).
Proof.
  intros new lines. split.
  - unfold add_imports. f_equal. apply (fold_insert 0 new [] lines). reflexivity.
  - unfold add_imports, search_line.
    assert (N : forall k, contains "if TYPE_CHECKING:" k = false -> ~ exists x y, k = x ++ "if TYPE_CHECKING:" ++ y).
    { intros k C Hk. apply contains_spec in Hk. congruence. }
    destruct (search_line_spec "if TYPE_CHECKING:" lines 0) as [(a & l & b & -> & C & Ha & ->) | [F ->]].
    + left. exists a, l, b. split; [reflexivity|]. split; [now apply contains_spec|]. split.
      * eapply Forall_impl; [|exact Ha]. exact N.
      * cbn [andthen Nat.add]. f_equal.
        replace (a ++ l :: b)%list with ((a ++ [l]) ++ b)%list by (now rewrite <- app_assoc).
        rewrite fold_insert by (rewrite app_length; cbn; lia). rewrite <- app_assoc. reflexivity.
    + right. split; [|reflexivity]. eapply Forall_impl; [|exact F]. exact N.
Qed.
Print Assumptions C45_add_imports.

Example C45_example :
  add_imports ["import a"; "import b"] true ["x"; "if TYPE_CHECKING:"; "    import c"; "y"] =
    Val ["x"; "if TYPE_CHECKING:"; "    import a"; "    import b"; "    import c"; "y"] /\
  add_imports ["import a"] true ["x"] = Raise ValueError /\
  py_str (add_lines (-1) ["u"; "v"] ["a"; "b"]) = join nl ["a"; "u"; "v"; "b"].
Proof. repeat split; vm_compute; reflexivity. Qed.

(** ** C46: removing private methods.

    As stated the property is false: one line too many is removed when no empty line follows the
    method, and a decorator in the last line of the file belongs to a private method in the first. *)
Theorem C46_line_below_refuted :
  exists lines, remove_all_private_methods lines = Val ["class A:"] /\ In "    x = 1" lines /\ ~ starts_private "    x = 1".
Proof.
  exists ["class A:"; "    def _a(self):"; "        return 1"; "    x = 1"]. split; [vm_compute; reflexivity|]. split; [cbn; auto|].
  apply is_private_false. vm_compute. reflexivity.
Qed.
Print Assumptions C46_line_below_refuted.

Theorem C46_two_methods_refuted :
  exists lines, remove_all_private_methods lines = Val ["class A:"; "    y = 2"] /\
    lines = ["class A:"; "    def _a(self):"; "        return 1"; "    def _b(self):"; "        return 1"; ""; "    x = 1"; "    y = 2"].
Proof. eexists; split; [|reflexivity]. vm_compute. reflexivity. Qed.
Print Assumptions C46_two_methods_refuted.

Theorem C46_first_line_refuted :
  exists lines, remove_all_private_methods lines = Val ["y = 2"] /\ In "x = a @ b" lines.
Proof. exists ["def _a():"; "    return 1"; ""; "y = 2"; "x = a @ b"]. split; [vm_compute; reflexivity | do 4 right; now left]. Qed.
Print Assumptions C46_first_line_refuted.

(** Exactly the private methods, each with the empty line below it, are removed from a file laid out like
    the output of [ast.unparse]: methods without empty lines inside, followed by an empty line or by
    the end of the file. *)
Theorem C46_layout_partial : forall lines kept,
  Layout (has_at (last lines "")) lines kept -> remove_all_private_methods lines = Val kept.
Proof. exact remove_private_layout. Qed.
Print Assumptions C46_layout_partial.

(** The loops end for all files (the program may raise IndexError). *)
Theorem C46_terminates : forall lines, remove_all_private_methods lines <> NoFuel.
Proof. exact remove_private_fuel. Qed.
Print Assumptions C46_terminates.

Definition c46_lines : list string :=
  ["class A:"; "    x = 1"; ""; "    @final"; "    @staticmethod"; "    def _a("; "        x: int"; "    ) -> int:"; "        y = x";
   "        return y"; ""; "    def b(self):..."; ""; "    def _c(self):..."].
Example C46_example :
  Layout (has_at (last c46_lines "")) c46_lines ["class A:"; "    x = 1"; ""; "    def b(self):..."; ""].
Proof.
  assert (NP : forall l, is_private l = false -> ~ starts_private l) by (intros l; apply is_private_false).
  assert (NA : forall l, contains "@" l = false -> ~ has_at l) by (intros l; apply contains_at_false).
  assert (NC : forall l, contains "):" l || contains "->" l = false -> ~ closes l) by (intros l; apply closes_false).
  unfold c46_lines.
  do 3 (apply Layout_keep; [apply NP; reflexivity|]).
  apply (Layout_method _ (["    @final"; "    @staticmethod"] ++ "    def _a(" :: ["        x: int"; "    ) -> int:"] ++ ["        y = x"; "        return y"])).
  - apply NA. reflexivity.
  - apply (Method_intro _ "    ").
    + repeat constructor; try (apply contains_at; reflexivity); apply NP; reflexivity.
    + exists "a(". split; [reflexivity|]. split; [apply blank_spec; reflexivity|]. intros r'. discriminate.
    + exists ["    def _a("; "        x: int"], "    ) -> int:". split; [reflexivity|]. split.
      * repeat constructor; apply NC; reflexivity.
      * apply closes_spec. reflexivity.
    + repeat constructor; apply NP; reflexivity.
    + repeat constructor; try (apply NP; reflexivity).
      * exists "    ", " "%char, "   y = x". repeat split. apply is_space_white. reflexivity.
      * exists "    ", " "%char, "   return y". repeat split. apply is_space_white. reflexivity.
  - do 2 (apply Layout_keep; [apply NP; reflexivity|]).
    apply Layout_last; [apply NA; reflexivity|].
    apply (Method_intro [] "    " "    def _c(self):..." [] []); auto.
    + exists "c(self):...". split; [reflexivity|]. split; [apply blank_spec; reflexivity|]. intros r'. discriminate.
    + exists [], "    def _c(self):...". split; [reflexivity|]. split; [constructor|]. apply closes_spec. reflexivity.
Qed.
Example C46_example_run : remove_all_private_methods c46_lines = Val ["class A:"; "    x = 1"; ""; "    def b(self):..."; ""].
Proof. vm_compute. reflexivity. Qed.
