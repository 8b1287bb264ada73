(** C47 and C59 for every history: what the stub lists, how often, and below which decorators. *)
From Coq Require Import Ascii String List Bool Arith Lia Permutation.
From Verif Require Import PyStr PyStrFacts Exc Dispatch Values Samples PyFile Live SpecLive LiveText LiveMethods LiveBlocks LiveFacts LiveHistory LiveCounts LiveSample PropsExact PropsLive SpecMachine PropsMachine PropsCrash.
Import ListNotations.
Local Open Scope string_scope.
Local Open Scope nat_scope.

(** Each list names each class once, and only classes with accepted names that are registered. *)
Definition listed_once (k : known) : Prop :=
  NoDup (k_registry k) /\ Forall SpecExact.accepted (k_registry k) /\
  forall l, l = k_imports k \/ l = k_yaml k \/ l = k_data k -> NoDup l /\ incl l (k_registry k).

Lemma listed_call {D} (generate : D -> string -> exc string) k v fs data c r es : listed_once k -> Call generate SpecExact.accepted agree k v fs data c r es ->
  forall e, In e es -> match e with EStub k' => listed_once k' | EFile _ _ => True end.
Proof.
  intros (N & A & L) H [|k'] He; auto.
  assert (V : SpecExact.accepted c) by (destruct H; cbn [In] in He; auto; tauto).
  destruct (call_writes _ _ _ _ _ _ _ _ _ _ H k' He) as (i & g & y & d & -> & NI & E). cbn [k_imports k_registry k_yaml k_data] in *.
  assert (R : NoDup (g ++ [c])) by (apply (Permutation_NoDup (l := c :: g)); [apply Permutation_cons_append|now constructor]).
  assert (F : Forall SpecExact.accepted (g ++ [c])) by (apply Forall_app; split; auto).
  assert (K : forall l, l = i \/ l = y \/ l = d -> (NoDup l /\ incl l (g ++ [c])) /\ (NoDup (c :: l) /\ incl (c :: l) (g ++ [c]))).
  { intros l Hl. destruct (L l Hl) as [L1 L2]. assert (I : incl l (g ++ [c])) by (intros z Hz; apply in_or_app; left; auto). split; [auto|]. split; [constructor; auto|].
    intros z [<-|Hz]; [apply in_or_app; right; now left|auto]. }
  destruct E as [->|[->|[->| ->]]]; (split; [exact R|]); (split; [exact F|]); cbn [k_imports k_registry k_yaml k_data];
    intros l [->|[->| ->]]; first [apply (K i); auto | apply (K y); auto | apply (K d); auto].
Qed.
Lemma leads_listed {D} (generate : D -> string -> exc string) os xs m : Runs generate SpecExact.accepted agree fresh os xs m -> all_know listed_once m.
Proof.
  assert (Z : listed_once nothing).
  { split; [constructor|]. split; [constructor|]. intros l [->|[->| ->]]; (split; [constructor|intros ? []]). }
  intros R. eapply (runs_kept generate SpecExact.accepted agree listed_once); [intros; eapply listed_call; eauto|exact R|now left|split; [discriminate|constructor]].
Qed.
Lemma accepted_names cs : Forall SpecExact.accepted cs -> names_ok cs.
Proof. intros H. eapply Forall_impl; [|exact H]. intros a. apply is_compatible_accepted. Qed.
Lemma incl_accepted l cs : Forall SpecExact.accepted cs -> incl l cs -> names_ok l.
Proof. intros H I. apply accepted_names, Forall_forall. intros x Hx. rewrite Forall_forall in H. auto. Qed.

(** C47 for every history (any number of objects, failing calls, resets and crashes): the stub has one import line for each class the machine lists as imported, one overload of each method for
    each class listed for it, and none for any other class; and the registry line has the classes of the registry. *)
Theorem C47_all_histories : forall D unparsed (generate : D -> string -> exc string) t os,
  well_formed t = true -> initial_lines unparsed = Val (template_lines t) -> (forall d c, generate d c <> NoFuel) ->
  let w := snd (steps unparsed generate clean os) in
  exists m, Runs generate SpecExact.accepted agree fresh os (fst (steps unparsed generate clean os)) m /\
  match m_stub m with
  | None => d_stub (w_disk w) = None
  | Some k => exists text, d_stub (w_disk w) = Some text /\ listed_once k /\
      let lines := splitlines (universal text) in
      Stub t (k_imports k) (k_registry k) (k_yaml k) (k_data k) lines /\
      In (registry t (k_registry k)) lines /\
      forall c, SpecExact.accepted c ->
        count lines (import_line c) = (if in_dec string_dec c (k_imports k) then 1 else 0) /\
        count lines (overload_def "from_data" (t_data t) c) = (if in_dec string_dec c (k_data k) then 1 else 0) /\
        count lines (overload_def "from_yaml_file" (t_yaml t) c) = (if in_dec string_dec c (k_yaml k) then 1 else 0)
  end.
Proof.
  intros D unparsed generate t os Ht Hi Hg w. destruct (C94_machine D unparsed generate t os Ht Hi Hg) as (m & R & (S1 & _)). exists m. split; [exact R|].
  destruct (leads_listed _ _ _ _ R) as [K _]. destruct (m_stub m) as [k|]; [|exact S1]. destruct S1 as (text & E & ST). exists text. split; [exact E|].
  pose proof (K k eq_refl) as L. split; [exact L|]. destruct L as (N & A & L). destruct (L _ (or_introl eq_refl)) as [L1 L2]. destruct (L _ (or_intror (or_introl eq_refl))) as [L3 L4]. destruct (L _ (or_intror (or_intror eq_refl))) as [L5 L6].
  cbv zeta. unfold stub_shows in ST. split; [exact ST|].
  pose proof (fun c Hc => Stub_counts t Ht _ _ _ _ _ c ST (incl_accepted _ _ A L2) (accepted_names _ A) (incl_accepted _ _ A L4) (incl_accepted _ _ A L6) Hc) as C.
  split; [exact (proj1 (C "A" eq_refl))|]. intros c Hc. apply is_compatible_accepted in Hc. destruct (C c Hc) as (_ & C1 & C2 & C3). rewrite C1, C2, C3.
  assert (Z : forall l, NoDup l -> count l c = if in_dec string_dec c l then 1 else 0).
  { intros l Hl. destruct (in_dec string_dec c l) as [I|I]; [now apply count_nodup|]. now apply (count_occ_not_In string_dec). }
  split; [now apply Z|]. split; now apply Z.
Qed.
Print Assumptions C47_all_histories.

(** C59 for every history: each overload the stub has for a class is there once, and directly above it are the lines "@overload" and "@override". *)
Theorem C59_all_histories : forall D unparsed (generate : D -> string -> exc string) t os,
  well_formed t = true -> initial_lines unparsed = Val (template_lines t) -> (forall d c, generate d c <> NoFuel) ->
  let w := snd (steps unparsed generate clean os) in
  forall text, d_stub (w_disk w) = Some text ->
  forall name m, (name = "from_data" /\ m = t_data t) \/ (name = "from_yaml_file" /\ m = t_yaml t) ->
  forall c, SpecExact.accepted c -> In (overload_def name m c) (splitlines (universal text)) ->
  exists above below, splitlines (universal text) = (above ++ [overload_line; override_line; overload_def name m c] ++ below)%list /\
    ~ In (overload_def name m c) above /\ ~ In (overload_def name m c) below.
Proof.
  intros D unparsed generate t os Ht Hi Hg w text Et name mt Hm c Hc HI.
  destruct (C47_all_histories D unparsed generate t os Ht Hi Hg) as (m & _ & H). fold w in H. destruct (m_stub m) as [k|]; [|congruence].
  destruct H as (text' & E & _ & ST & _ & HC). rewrite Et in E. injection E as <-. cbv zeta in ST, HC. destruct (HC c Hc) as (_ & CD & CY).
  apply (count_occ_In string_dec) in HI. destruct ST as (py & pd & tail & A & B & _ & EL).
  destruct Hm as [[-> ->]|[-> ->]].
  - destruct (in_dec string_dec c (k_data k)) as [I|_]; [|lia]. destruct (MethodPart_decorated _ _ _ _ c B I) as (a & b & ->).
    assert (L : splitlines (universal text) = ((map import_line (k_imports k) ++ t_head t ++ [SpecLive.registry t (k_registry k)] ++ t_mid1 t ++ py ++ t_mid2 t ++ a) ++
      [overload_line; override_line; overload_def "from_data" (t_data t) c] ++ (b ++ tail))%list) by (rewrite EL; now rewrite <- !app_assoc).
    eexists _, _. split; [exact L|]. rewrite L in CD. exact (count_around _ _ _ _ _ CD).
  - destruct (in_dec string_dec c (k_yaml k)) as [I|_]; [|lia]. destruct (MethodPart_decorated _ _ _ _ c A I) as (a & b & ->).
    assert (L : splitlines (universal text) = ((map import_line (k_imports k) ++ t_head t ++ [SpecLive.registry t (k_registry k)] ++ t_mid1 t ++ a) ++
      [overload_line; override_line; overload_def "from_yaml_file" (t_yaml t) c] ++ (b ++ t_mid2 t ++ pd ++ tail))%list) by (rewrite EL; now rewrite <- !app_assoc).
    eexists _, _. split; [exact L|]. rewrite L in CY. exact (count_around _ _ _ _ _ CY).
Qed.
Print Assumptions C59_all_histories.
(** Two objects, a crash after the overload of from_data and a class registered after it: the overload of the crashed class is there for one method only. *)
Definition c59_history : list (@op pyval) := [New false; New false; Use 0 (vlist [vint]) "A"; Use 1 (vlist [vint]) "B"; Crash (vlist [vint]) "C" 0 4; New true; Use 0 (vlist [vint]) "E"].
Definition has_line (l : string) (text : string) : bool := existsb (String.eqb l) (splitlines (universal text)).
Example C59_all_example :
  let text := stub_of (snd (steps live_unparsed live_text clean c59_history)) in
  d_stub (w_disk (snd (steps live_unparsed live_text clean c59_history))) = Some text /\
  map (fun c => (has_line (overload_def "from_data" (t_data live_template) c) text, has_line (overload_def "from_yaml_file" (t_yaml live_template) c) text, has_line (import_line c) text)) ["A"; "B"; "C"; "E"] =
    [(true, true, true); (false, false, false); (true, false, true); (true, true, true)].
Proof. split; vm_compute; reflexivity. Qed.

(** C47 needs the arrow: of a method without a return annotation the overload keeps the first two characters only. *)
Theorem C47_no_arrow : forall c x z D ann sep r e,
  no_char "c" D -> x <> "c"%char -> z <> "c"%char -> no_char (chr 44) ann -> no_char (chr 41) ann -> sep = chr 44 \/ sep = chr 41 ->
  Forall (no_char ">") [String x (String z D); c; String sep r; e] -> no_char ":" e ->
  edit_signature "class_name" c (String x (String z D) ++ "class_name:" ++ ann ++ String sep r ++ ":" ++ e) = Val (String x (String z "") ++ c ++ ":" ++ e).
Proof.
  intros c x z D ann sep r e HD Hx Hz A1 A2 HT F Ne. set (P := String x (String z D)) in *.
  assert (HP : no_char "c" P).
  { unfold no_char, P in *. cbn [str_forall]. rewrite HD, !andb_true_r. apply andb_true_iff. split; apply negb_true_iff, not_true_iff_false; intros E; apply Ascii.eqb_eq in E; congruence. }
  inversion F as [|? ? F1 F']; subst. inversion F' as [|? ? F2 F'']; subst. inversion F'' as [|? ? F3 F4]; subst. inversion F4 as [|? ? F5 _]; subst. clear F F' F'' F4.
  unfold edit_signature. set (tail := String sep r ++ ":" ++ e).
  replace (P ++ "class_name:" ++ ann ++ tail) with (P ++ "class_name" ++ (":" ++ ann ++ tail)) by reflexivity.
  assert (Fi : find_str "class_name" (P ++ "class_name" ++ (":" ++ ann ++ tail)) = Some (String.length P + 0)) by (apply (find_str_skip "c" "lass_name"); [exact HP|reflexivity]).
  rewrite Fi, Nat.add_0_r. cbv zeta. set (first := String.length P + String.length "class_name").
  assert (L1 : first = String.length (P ++ "class_name")) by (unfold first; rewrite length_app_s; reflexivity).
  replace (P ++ "class_name" ++ (":" ++ ann ++ tail)) with ((P ++ "class_name") ++ (":" ++ ann) ++ tail) by (rewrite !app_assoc_s; reflexivity).
  assert (Sc : scan_sep ((":" ++ ann) ++ tail) first = Val (first + String.length (":" ++ ann))).
  { apply (scan_sep_app (":" ++ ann) sep (r ++ ":" ++ e)); [rewrite no_char_app; split; [reflexivity|exact A1]|rewrite no_char_app; split; [reflexivity|exact A2]|exact HT]. }
  rewrite L1 at 1. rewrite drop_app, Sc.
  cbn [andthen].
  replace (first + String.length (":" ++ ann)) with (String.length ((P ++ "class_name") ++ ":" ++ ann)) by (rewrite length_app_s, <- L1; reflexivity).
  rewrite <- (app_assoc_s (P ++ "class_name") (":" ++ ann) tail), drop_app.
  replace (take (first + 1) (((P ++ "class_name") ++ ":" ++ ann) ++ tail)) with ((P ++ "class_name") ++ ":").
  2: { replace (((P ++ "class_name") ++ ":" ++ ann) ++ tail) with (((P ++ "class_name") ++ ":") ++ ann ++ tail) by (now rewrite !app_assoc_s).
       replace (first + 1) with (String.length ((P ++ "class_name") ++ ":")) by (rewrite length_app_s, <- L1; reflexivity). now rewrite take_app. }
  set (A := ((P ++ "class_name") ++ ":") ++ (" Literal[""" ++ c ++ """]") ++ String sep r).
  replace (((P ++ "class_name") ++ ":") ++ (" Literal[""" ++ c ++ """]") ++ tail) with (A ++ ":" ++ e) by (unfold A, tail; now rewrite !app_assoc_s).
  rewrite rfind_absent.
  2: { apply (contains_absent _ _ ">"%char); [cbn; auto|]. unfold A. rewrite !no_char_app. repeat split; auto. }
  rewrite (LiveText.rfind_last ":" ""); [|cbn [append]; now apply contains_no]. rewrite drop_app. reflexivity.
Qed.
Print Assumptions C47_no_arrow.
Example C47_no_arrow_example : edit_signature "class_name" "A" "    def from_data(self, data: Any, class_name: str): ..." = Val "  A: ...".
Proof. vm_compute. reflexivity. Qed.
