(** C75-C77: what [Mypy.scan_string], [Mypy.scan_file] and the printed result say. *)
From Coq Require Import Ascii String List Bool Arith Lia.
From Verif Require Import PyStr PyStrFacts Exc Live YamlLoad Frame SpecNames SpecLive LiveText SpecFrame Mypy SpecMypy.
Import ListNotations.
Local Open Scope string_scope.
Local Open Scope nat_scope.

(** ** Texts *)
Lemma occurs_iff sub s : occurs sub s <-> contains sub s = true.
Proof. symmetry. apply contains_spec. Qed.
Lemma not_occurs sub s : ~ occurs sub s -> contains sub s = false.
Proof. intros H. destruct (contains sub s) eqn:E; auto. exfalso. apply H. now apply occurs_iff. Qed.

Lemma startswith_sep c p : str_forall (fun d => negb (Ascii.eqb d c)) p = true ->
  forall a b, startswith p (a ++ String c b) = startswith p a.
Proof.
  induction p as [|d p IH]; intros H a b; [now destruct a, b|]. cbn [str_forall] in H. apply andb_true_iff in H as [Hd Hp].
  destruct a as [|e a]; cbn [append startswith].
  - destruct (Ascii.eqb d c); [discriminate|reflexivity].
  - now rewrite IH.
Qed.
Lemma contains_sep c p : p <> "" -> str_forall (fun d => negb (Ascii.eqb d c)) p = true ->
  forall a b, contains p (a ++ String c b) = contains p a || contains p b.
Proof.
  intros N H a b. induction a as [|e a IH].
  - destruct p as [|d p]; [congruence|]. cbn [append contains startswith]. cbn [str_forall] in H. destruct (Ascii.eqb d c); [discriminate|]. reflexivity.
  - cbn [append]. change (contains p (String e (a ++ String c b))) with (startswith p (String e a ++ String c b) || contains p (a ++ String c b)).
    rewrite startswith_sep, IH by exact H. change (contains p (String e a)) with (startswith p (String e a) || contains p a). now rewrite orb_assoc.
Qed.

Definition sep : string := "error: ".
Lemma split_none a : contains sep a = false -> split_str sep a 0 = [a].
Proof.
  induction a as [|c a IH]; intros H; [reflexivity|].
  change (contains sep (String c a)) with (startswith sep (String c a) || contains sep a) in H. apply orb_false_iff in H as [H1 H2].
  change (split_str sep (String c a) 0) with (if startswith sep (String c a) then "" :: split_str sep a (String.length sep - 1) else onto_head c (split_str sep a 0)).
  rewrite H1, (IH H2). reflexivity.
Qed.
Lemma no_straddle c x b : startswith sep (String c x) = false -> startswith sep (String c x ++ sep ++ b) = false.
Proof.
  unfold sep. intros H.
  do 7 (cbn [append startswith] in H |- *; match goal with |- (if Ascii.eqb ?d ?e then _ else _) = false => destruct (Ascii.eqb d e); [|reflexivity] | |- Ascii.eqb ?d ?e && _ = false => destruct (Ascii.eqb d e); [|reflexivity] end;
    cbn [andb] in H |- *; try (destruct x as [|? x]; [reflexivity|])).
  all: try discriminate; try (cbn in H; discriminate).
Qed.
Lemma split_first a b : contains sep a = false -> split_str sep (a ++ sep ++ b) 0 = a :: split_str sep b 0.
Proof.
  induction a as [|c a IH]; intros H; [reflexivity|].
  change (contains sep (String c a)) with (startswith sep (String c a) || contains sep a) in H. apply orb_false_iff in H as [H1 H2].
  change (split_str sep (String c a ++ sep ++ b) 0) with
    (if startswith sep (String c a ++ sep ++ b) then "" :: split_str sep (a ++ sep ++ b) (String.length sep - 1) else onto_head c (split_str sep (a ++ sep ++ b) 0)).
  rewrite (no_straddle c a b H1), (IH H2). reflexivity.
Qed.

Definition bracket : ascii := "]"%char.
Lemma rfind_none s : contains "]" s = false -> rfind_str "]" s = None.
Proof.
  induction s as [|c s IH]; intros H; [reflexivity|].
  change (contains "]" (String c s)) with (startswith "]" (String c s) || contains "]" s) in H. apply orb_false_iff in H as [H1 H2].
  change (rfind_str "]" (String c s)) with (match rfind_str "]" s with Some i => Some (S i) | None => if startswith "]" (String c s) then Some 0 else None end).
  now rewrite (IH H2), H1.
Qed.
Lemma rfind_last x q : contains "]" q = false -> rfind_str "]" (x ++ String bracket q) = Some (String.length x).
Proof.
  intros H. induction x as [|c x IH]; cbn [append String.length].
  - change (rfind_str "]" (String bracket q)) with (match rfind_str "]" q with Some i => Some (S i) | None => if startswith "]" (String bracket q) then Some 0 else None end).
    rewrite (rfind_none q H). now destruct q.
  - change (rfind_str "]" (String c (x ++ String bracket q))) with (match rfind_str "]" (x ++ String bracket q) with Some i => Some (S i) | None => if startswith "]" (String c (x ++ String bracket q)) then Some 0 else None end).
    now rewrite IH.
Qed.
Definition bracketed (u : string) : Prop := u = "" \/ exists x, u = x ++ "]".
Lemma take_whole a b n : n = String.length a -> take n (a ++ b) = a.
Proof. intros ->. apply take_app. Qed.
Lemma cut u q : bracketed u -> contains "]" q = false -> up_to_bracket (u ++ q) = u.
Proof.
  intros [->|(x & ->)] H; unfold up_to_bracket.
  - cbn [append]. now rewrite rfind_none.
  - rewrite app_assoc_s. cbn [append]. change "]"%char with bracket. rewrite rfind_last by exact H.
    replace (x ++ String bracket q) with ((x ++ "]") ++ q) by now rewrite app_assoc_s. apply take_whole. rewrite length_app_s. cbn. lia.
Qed.

(** ** Reports *)
Definition bsn : string := String (chr 92) "n".
Fixpoint ereport (l : list item) : string :=
  match l with [] => "" | i :: r => item_line i ++ bsn ++ ereport r end.

Definition pl (c : ascii) : bool := between 32 126 (ord c) && negb (Ascii.eqb c (chr 39)) && negb (Ascii.eqb c (chr 92)).
Lemma plain_char_pl c : plain_char c -> pl c = true.
Proof.
  intros ([H1 H2] & H3 & H4). unfold pl, between. change (ord c) with (code c). apply andb_true_intro; split; [apply andb_true_intro; split; [apply andb_true_intro; split; now apply Nat.leb_le|]|];
  apply negb_true_iff, Ascii.eqb_neq; intros ->; [apply H3|apply H4]; reflexivity.
Qed.
Lemma plain_pl s : plain s -> str_forall pl s = true.
Proof. unfold plain. induction s as [|c s IH]; intros H; [reflexivity|]. inversion H; subst. cbn [str_forall]. rewrite plain_char_pl, IH by auto. reflexivity. Qed.
Lemma bytes_char_pl c : pl c = true -> bytes_char (chr 39) c = String c "".
Proof.
  revert c. assert (H : forall c, implb (pl c) (String.eqb (bytes_char (chr 39) c) (String c "")) = true) by (apply all_chars_spec; vm_compute; reflexivity).
  intros c P. specialize (H c). rewrite P in H. now apply String.eqb_eq in H.
Qed.
Lemma bytes_plain s : str_forall pl s = true -> forall r, bytes_chars (chr 39) (s ++ r) = s ++ bytes_chars (chr 39) r.
Proof.
  induction s as [|c s IH]; intros H r; [reflexivity|]. cbn [str_forall] in H. apply andb_true_iff in H as [Hc Hs].
  cbn [append bytes_chars]. rewrite bytes_char_pl, IH by auto. reflexivity.
Qed.
Lemma regular_line i : regular i -> str_forall pl (item_line i) = true.
Proof.
  destruct i as [p m c|t]; cbn [regular item_line].
  - intros ((H1 & _) & H2 & _). apply plain_pl in H1, H2. rewrite str_forall_app in H1. apply andb_true_iff in H1 as [H1 _]. rewrite !str_forall_app, H1, H2. reflexivity.
  - intros (H & _). now apply plain_pl.
Qed.
Lemma bytes_report l : Forall regular l -> bytes_chars (chr 39) (report l) = ereport l.
Proof.
  induction l as [|i l IH]; intros H; [reflexivity|]. inversion H; subst. cbn [report ereport]. rewrite bytes_plain by now apply regular_line.
  change (bytes_chars (chr 39) (line_feed ++ report l)) with (bsn ++ bytes_chars (chr 39) (report l)). now rewrite IH.
Qed.
Lemma report_no_quote l : Forall regular l -> contains (String (chr 39) "") (report l) = false.
Proof.
  intros H. rewrite contains_char. induction l as [|i l IH]; [reflexivity|]. inversion H as [|? ? H1 H2]; subst. cbn [report]. rewrite !str_exists_app, (IH H2).
  apply regular_line in H1. replace (str_exists (Ascii.eqb (chr 39)) (item_line i)) with false; [reflexivity|]. symmetry. apply negb_true_iff. rewrite <- str_forall_exists.
  eapply str_forall_impl; [|exact H1]. intros c Hc. unfold pl in Hc. rewrite Ascii.eqb_sym. apply andb_true_iff in Hc as [Hc _]. now apply andb_true_iff in Hc as [_ Hc].
Qed.
Lemma bytes_str_report l : Forall regular l -> bytes_str (report l) = "b'" ++ ereport l ++ "'".
Proof. intros H. unfold bytes_str. rewrite report_no_quote by exact H. cbn [andb]. rewrite bytes_report by exact H. reflexivity. Qed.

Fixpoint chunks (pre : string) (l : list item) : list string :=
  match l with
  | [] => [pre ++ "'"]
  | Remark t :: r => chunks (pre ++ t ++ bsn) r
  | Problem p m c :: r => (pre ++ p ++ ": ") :: chunks (said m c ++ bsn) r
  end.
Definition closed_off (pre : string) : Prop :=
  contains sep pre = false /\ exists x c, pre = x ++ String c "" /\ str_forall (fun d => negb (Ascii.eqb d c)) sep = true.
Lemma closed_app pre t : closed_off pre -> contains sep t = false -> contains sep (pre ++ t) = false.
Proof.
  intros (H & x & c & -> & Hc) Ht. rewrite app_assoc_s. cbn [append]. rewrite (contains_sep c sep); [|discriminate|exact Hc].
  rewrite (contains_sep c sep) in H; [|discriminate|exact Hc]. apply orb_false_iff in H as [-> _]. now rewrite Ht.
Qed.
Lemma closed_bsn s : contains sep s = false -> closed_off (s ++ bsn).
Proof.
  intros H. split.
  - unfold bsn. rewrite (contains_sep (chr 92) sep); [now rewrite H|discriminate|reflexivity].
  - exists (s ++ String (chr 92) ""), "n"%char. split; [now rewrite app_assoc_s|reflexivity].
Qed.
Lemma split_chunks l : forall pre, Forall regular l -> closed_off pre -> split_str sep (pre ++ ereport l ++ "'") 0 = chunks pre l.
Proof.
  induction l as [|[p m c|t] l IH]; intros pre H Hp; cbn [ereport chunks].
  - cbn [append]. apply split_none. apply closed_app; auto.
  - inversion H as [|? ? H0 Hl]; subst. destruct H0 as (H1 & H2 & H3). cbn [item_line]. rewrite !app_assoc_s.
    change (": error: " ++ ?x) with (": " ++ sep ++ x).
    replace (pre ++ p ++ ": " ++ sep ++ said m c ++ bsn ++ ereport l ++ "'") with ((pre ++ p ++ ": ") ++ sep ++ (said m c ++ bsn) ++ ereport l ++ "'") by now rewrite !app_assoc_s.
    destruct H1 as (_ & H1 & _). rewrite split_first by (apply closed_app; auto; now apply not_occurs). rewrite IH; auto. apply closed_bsn. now apply not_occurs.
  - inversion H as [|? ? H0 Hl]; subst. destruct H0 as (H1 & H2 & H3). cbn [item_line]. rewrite !app_assoc_s.
    replace (pre ++ t ++ bsn ++ ereport l ++ "'") with ((pre ++ t ++ bsn) ++ ereport l ++ "'") by now rewrite !app_assoc_s.
    rewrite IH; auto. replace (pre ++ t ++ bsn) with ((pre ++ t) ++ bsn) by now rewrite !app_assoc_s. apply closed_bsn. apply closed_app; auto. now apply not_occurs.
Qed.

Lemma no_bracket_app a b : contains "]" a = false -> contains "]" b = false -> contains "]" (a ++ b) = false.
Proof. intros A B. rewrite contains_char, str_exists_app, <- !contains_char. change (String "]" "") with "]" in *. now rewrite A, B. Qed.
Lemma said_bracketed m c : bracketed (said m c).
Proof. right. exists (m ++ "  [" ++ c). unfold said. now rewrite !app_assoc_s. Qed.
Lemma chunks_texts l : forall u t, Forall regular l -> bracketed u -> contains "]" t = false -> map up_to_bracket (chunks (u ++ t) l) = u :: problems l.
Proof.
  induction l as [|[p m c|x] l IH]; intros u t H Hu Ht; cbn [chunks problems map].
  - rewrite app_assoc_s, cut; auto. apply no_bracket_app; auto.
  - inversion H as [|? ? H0 Hl]; subst. destruct H0 as (H1 & H2 & H3). destruct H1 as (_ & _ & H1). rewrite app_assoc_s, cut; auto; [|apply no_bracket_app; auto; now apply not_occurs].
    rewrite (IH (said m c) bsn); auto using said_bracketed.
  - inversion H as [|? ? H0 Hl]; subst. destruct H0 as (H1 & H2 & H3). replace ((u ++ t) ++ x ++ bsn) with (u ++ (t ++ x ++ bsn)) by now rewrite !app_assoc_s.
    apply IH; auto. apply no_bracket_app; auto. apply no_bracket_app; auto. now apply not_occurs.
Qed.
Lemma said_nonempty m c : said m c <> "".
Proof. unfold said. intros H. apply app_eq_nil_s in H as [_ H]. discriminate. Qed.
Lemma problems_said l : Forall (fun e => e <> "") (problems l).
Proof. induction l as [|[p m c|x] l IH]; cbn [problems]; auto. constructor; auto. apply said_nonempty. Qed.

Lemma kept_filter {A} (f : A -> bool) (P : A -> Prop) l : (forall x, In x l -> f x = false <-> P x) -> kept P l (filter f l).
Proof.
  induction l as [|x l IH]; intros H; [constructor|]. cbn [filter]. assert (IH' := IH (fun y Hy => H y (or_intror Hy))).
  destruct (f x) eqn:E.
  - apply kept_keep; auto. intros Px. apply (H x (or_introl eq_refl)) in Px. congruence.
  - apply kept_drop; auto. now apply (H x (or_introl eq_refl)).
Qed.

(** *** C75: [scan_string] *)

(** The text shown is what mypy said, less the errors that mention one of the keywords. *)
Theorem C75_scan_string_partial : forall w text strict version ignore l, Forall regular l ->
  w (string_command strict version text) = Some (Outcome (report l) "") ->
  exists errors, scan_string w text strict version ignore = Val (Result (match errors with [] => true | _ => false end) errors) /\
    kept (fun e => exists k, In k ignore /\ occurs k e) (problems l) errors.
Proof.
  intros w text strict version ignore l H Hw. unfold scan_string. rewrite Hw. cbn [o_stderr o_stdout]. cbn [String.eqb negb]. change "error: " with sep.
  rewrite bytes_str_report by exact H. rewrite split_chunks; auto.
  2: { split; [reflexivity|]. exists "b", "'"%char. split; reflexivity. }
  change "b'" with ("" ++ "b'"). rewrite chunks_texts; auto; [|now left]. cbn [filter]. change (kept_text ignore "") with false. cbn iota. eexists. split; [reflexivity|].
  apply kept_filter. intros x Hx. assert (N : x <> "") by (pose proof (problems_said l) as P; rewrite Forall_forall in P; auto).
  unfold kept_text. apply String.eqb_neq in N. rewrite N. cbn [negb andb]. destruct ignore as [|k ks]; [split; [discriminate|intros (k & [] & _)]|].
  split.
  - intros F. assert (G : existsb (fun k => contains k x) (k :: ks) = true).
    { destruct (existsb (fun k0 => contains k0 x) (k :: ks)) eqn:E; auto. exfalso. rewrite <- not_true_iff_false in F. apply F. apply forallb_forall. intros y Hy. apply negb_true_iff.
      destruct (contains y x) eqn:Ey; auto. rewrite <- not_true_iff_false in E. exfalso. apply E. apply existsb_exists. eauto. }
    apply existsb_exists in G as (y & Hy & G). exists y. split; auto. now apply occurs_iff.
  - intros (y & Hy & Oy). apply occurs_iff in Oy. rewrite <- not_true_iff_false. intros F. rewrite forallb_forall in F. specialize (F y Hy). rewrite Oy in F. discriminate.
Qed.
Print Assumptions C75_scan_string_partial.
Definition say (stdout : string) : world := fun _ => Some (Outcome stdout "").
Definition two_errors : list item :=
  [Problem "<string>:1" ("Incompatible types in assignment (expression has type " ++ dq ++ "List[str]" ++ dq ++ ")") "assignment";
   Remark "<string>:1: note: See the documentation"; Problem "<string>:7" "Unsupported operand types" "operator";
   Remark "Found 2 errors in 1 file (checked 1 source file)"].
Ltac plain_text := unfold plain; cbn [append chars]; repeat constructor; unfold plain_char, code; cbn; lia.
Ltac quiet_text := split; [plain_text|split; intros X; apply occurs_iff in X; vm_compute in X; discriminate].
Example C75_example : Forall regular two_errors /\
  scan_string (say (report two_errors)) "x" false "3.8" ["Unsupported"] = Val (Result false ["Incompatible types in assignment (expression has type " ++ dq ++ "List[str]" ++ dq ++ ")  [assignment]"]).
Proof.
  split; [|vm_compute; reflexivity]. unfold two_errors, dq, dquote. repeat apply Forall_cons; try apply Forall_nil; cbn [regular]; unfold said; cbn [append].
  - split; [quiet_text|]. split; [plain_text|]. intros X; apply occurs_iff in X; vm_compute in X; discriminate.
  - quiet_text.
  - split; [quiet_text|]. split; [plain_text|]. intros X; apply occurs_iff in X; vm_compute in X; discriminate.
  - quiet_text.
Qed.

Lemma bytes_hex_digit n : n < 16 -> from_hex (chr (if Nat.ltb n 10 then 48 + n else 87 + n)) = Some n.
Proof. intros H. do 16 (destruct n as [|n]; [vm_compute; reflexivity|]). lia. Qed.
Lemma unquote_byte (q c : ascii) r : q = chr 39 \/ q = chr 34 -> unquote q (bytes_char q c ++ r) = push c (unquote q r).
Proof.
  intros Hq. assert (N : Ascii.eqb (ascii_of_nat 92) q = false) by (destruct Hq; subst; reflexivity).
  assert (E : forall e r1, unquote q (String (ascii_of_nat 92) (String e r1)) =
    if Ascii.eqb e (ascii_of_nat 92) || Ascii.eqb e (ascii_of_nat 39) || Ascii.eqb e (ascii_of_nat 34) then push e (unquote q r1)
            else if Ascii.eqb e (ascii_of_nat 110) then push (ascii_of_nat 10) (unquote q r1)
            else if Ascii.eqb e (ascii_of_nat 114) then push (ascii_of_nat 13) (unquote q r1)
            else if Ascii.eqb e (ascii_of_nat 116) then push (ascii_of_nat 9) (unquote q r1)
            else if Ascii.eqb e (ascii_of_nat 120) then
              match r1 with
              | String h1 (String h2 r2) =>
                  match from_hex h1, from_hex h2 with Some x, Some y => push (ascii_of_nat (16 * x + y)) (unquote q r2) | _, _ => None end
              | _ => None
              end
            else None) by (intros; cbn [unquote]; rewrite N; reflexivity).
  unfold bytes_char. destruct (Ascii.eqb_spec c (chr 92)) as [->|N1]; [cbn [String.append]; rewrite E; reflexivity|].
  destruct (Ascii.eqb_spec c q) as [->|N2]; [cbn [String.append]; rewrite E; destruct Hq; subst; reflexivity|].
  destruct (Ascii.eqb_spec c (chr 9)) as [->|N3]; [cbn [String.append]; rewrite E; reflexivity|].
  destruct (Ascii.eqb_spec c (chr 10)) as [->|N4]; [cbn [String.append]; rewrite E; reflexivity|].
  destruct (Ascii.eqb_spec c (chr 13)) as [->|N5]; [cbn [String.append]; rewrite E; reflexivity|].
  destruct (between 32 126 (ord c)).
  - cbn [String.append unquote]. change (ascii_of_nat 10) with (chr 10). change (ascii_of_nat 13) with (chr 13). change (ascii_of_nat 92) with (chr 92).
    rewrite (proj2 (Ascii.eqb_neq c q) N2), (proj2 (Ascii.eqb_neq c (chr 10)) N4), (proj2 (Ascii.eqb_neq c (chr 13)) N5), (proj2 (Ascii.eqb_neq c (chr 92)) N1). reflexivity.
  - unfold hex. cbn [String.append]. change (chr 92) with (ascii_of_nat 92). rewrite E. pose proof (nat_ascii_bounded c) as B. change (nat_of_ascii c) with (ord c) in B.
    assert (H1 : ord c / 16 < 16) by (apply Nat.div_lt_upper_bound; lia). assert (H2 : ord c mod 16 < 16) by (apply Nat.mod_upper_bound; lia).
    rewrite (bytes_hex_digit _ H1), (bytes_hex_digit _ H2), <- Nat.div_mod, ?(ascii_nat_embedding c) by lia; unfold ord; rewrite ?ascii_nat_embedding; reflexivity.
Qed.
Lemma unquote_bytes q s : q = chr 39 \/ q = chr 34 -> unquote q (bytes_chars q s ++ String q "") = Some s.
Proof.
  intros Hq. induction s as [|c s IH]; cbn [bytes_chars].
  - cbn [String.append unquote]. now rewrite Ascii.eqb_refl.
  - rewrite app_assoc_s, unquote_byte, IH; auto.
Qed.
Lemma bytes_str_value s : bytes_value (bytes_str s) = Some s.
Proof.
  unfold bytes_str. set (q := if _ && _ then _ else _). assert (Hq : q = chr 39 \/ q = chr 34) by (unfold q; destruct (_ && _); auto). clearbody q.
  change ("b" ++ String q "" ++ bytes_chars q s ++ String q "") with (String "b" (String q (bytes_chars q s ++ String q ""))). unfold bytes_value, string_value.
  replace (Ascii.eqb "b" "b") with true by reflexivity.
  replace (Ascii.eqb q (ascii_of_nat 39) || Ascii.eqb q (ascii_of_nat 34)) with true by (destruct Hq; subst; reflexivity). now apply unquote_bytes.
Qed.

(** The scan depends on one process only: mypy run on the text with the given options. *)
Theorem C75_command_partial : forall w w' text strict version ignore,
  w (mypy_text_arguments strict version text) = w' (mypy_text_arguments strict version text) ->
  scan_string w text strict version ignore = scan_string w' text strict version ignore.
Proof. intros w w' text [|] version ignore H; unfold scan_string, string_command; cbn [app]; cbn [mypy_text_arguments] in H; now rewrite H. Qed.
Print Assumptions C75_command_partial.
(** The hypothesis does not say that the machines are equal. *)
Example C75_command_example :
  let w := fun l => match l with [_; _; _; _; _; "--strict"; _; _; _; _] => Some (Outcome "" "") | _ => None end in
  w (mypy_text_arguments true "3.9" "x = 1") = (fun _ => Some (Outcome "" "")) (mypy_text_arguments true "3.9" "x = 1") /\ w [] = None.
Proof. split; reflexivity. Qed.

(** A run that writes to stderr: the scan fails, and the one error is a literal of what was written. *)
Theorem C75_stderr_partial : forall w text strict version ignore o,
  w (string_command strict version text) = Some o -> o_stderr o <> "" ->
  exists e, scan_string w text strict version ignore = Val (Result false [e]) /\ bytes_value e = Some (o_stderr o).
Proof.
  intros w text strict version ignore o E H. exists (bytes_str (o_stderr o)). unfold scan_string. rewrite E.
  destruct (String.eqb_spec (o_stderr o) "") as [X|X]; [contradiction|]. split; [reflexivity | apply bytes_str_value].
Qed.
Print Assumptions C75_stderr_partial.
Example C75_stderr_example :
  scan_string (fun _ => Some (Outcome "" ("C:\x isn't a file" ++ nl))) "x = 1" true "3.9" [] = Val (Result false ["b""C:\\x isn't a file\n"""]).
Proof. vm_compute. reflexivity. Qed.


(** A note with a bracket counts as an error, and an error without code is lost. *)
Theorem C75_success_refuted :
  (exists l, problems l = [] /\ forall w, (forall a, w a = Some (Outcome (report l) "")) -> exists e, scan_string w "x" false "3.8" [] = Val (Result false e)) /\
  (exists out, occurs "error: " out /\ forall w, (forall a, w a = Some (Outcome out "")) -> scan_string w "x" false "3.8" [] = Val (Result true [])).
Proof.
  split.
  - exists [Remark "<string>:2: note: Revealed type is List[int]"]. split; [reflexivity|]. intros w H. unfold scan_string. rewrite H. eexists. vm_compute. reflexivity.
  - exists ("<string>:1: error: invalid syntax" ++ line_feed). split; [exists "<string>:1: ", ("invalid syntax" ++ line_feed); reflexivity|].
    intros w H. unfold scan_string. rewrite H. vm_compute. reflexivity.
Qed.
Print Assumptions C75_success_refuted.

(** *** C76: [scan_file] *)
Lemma blank_in_command strict version f : contains " " (file_command strict version f) = true.
Proof. apply contains_spec. unfold file_command. destruct strict; cbn [app join]; [exists "mypy", ("--strict" ++ " " ++ ("--python-version " ++ version) ++ " " ++ p_dir f ++ p_name f)|exists "mypy", (("--python-version " ++ version) ++ " " ++ p_dir f ++ p_name f)]; reflexivity. Qed.
(** On POSIX the whole command is taken for the name of a program. *)
Theorem C76_posix_refuted : forall w, (forall name args, occurs " " name -> w (name :: args) = None) ->
  forall f strict version ignore, scan_file Posix w f strict version ignore = Raise FileNotFound.
Proof. intros w H f strict version ignore. unfold scan_file. cbn [process_arguments]. rewrite H; auto. apply occurs_iff. apply blank_in_command. Qed.
Print Assumptions C76_posix_refuted.
Example C76_posix_example : let w := fun args => match args with "mypy" :: _ => Some (Outcome "" "") | _ => None end in
  (forall name args, occurs " " name -> w (name :: args) = None) /\ w (mypy_arguments false "3.8" "f.py") = Some (Outcome "" "") /\
  scan_file Posix w (FilePath "" "f.py") false "3.8" [] = Raise FileNotFound.
Proof.
  cbv zeta. split; [|split; reflexivity]. intros name args H. apply occurs_iff in H.
  destruct (string_dec name "mypy") as [->|N]; [vm_compute in H; discriminate|].
  do 4 (destruct name as [|[[|] [|] [|] [|] [|] [|] [|] [|]] name]; try reflexivity). destruct name; [|reflexivity]. congruence.
Qed.

Lemma word_no_blank s : Forall (fun c => code c <> 32) (chars s) -> no_char (chr 32) s.
Proof.
  unfold no_char. induction s as [|c s IH]; intros H; [reflexivity|]. inversion H as [|? ? H1 H2]; subst. cbn [str_forall]. rewrite (IH H2).
  replace (Ascii.eqb (chr 32) c) with false; [reflexivity|]. symmetry. apply Ascii.eqb_neq. intros <-. now apply H1.
Qed.
Lemma windows_arguments strict version f : one_word version -> one_word (p_dir f ++ p_name f) ->
  process_arguments Windows (file_command strict version f) = mypy_arguments strict version (p_dir f ++ p_name f).
Proof.
  intros [V1 V2] [F1 F2]. cbn [process_arguments]. unfold file_command.
  replace (join " " _) with (join (String (chr 32) "") (mypy_arguments strict version (p_dir f ++ p_name f))).
  2: { unfold mypy_arguments. destruct strict; cbn [app join]; rewrite ?app_assoc_s; reflexivity. }
  rewrite split_join.
  - unfold mypy_arguments. apply String.eqb_neq in V1, F1. destruct strict; cbn [app filter]; cbn [String.eqb negb]; rewrite V1, F1; reflexivity.
  - unfold mypy_arguments. discriminate.
  - apply word_no_blank in V2, F2. unfold mypy_arguments. destruct strict; cbn [app]; repeat (apply Forall_cons; [auto; reflexivity|]); apply Forall_nil.
Qed.

Lemma one_line_iff s : one_line_text s -> one_line s = true.
Proof.
  unfold one_line_text, one_line. induction s as [|c s IH]; intros H; [reflexivity|]. inversion H as [|? ? H1 H2]; subst. cbn [str_forall]. rewrite (IH H2), andb_true_r.
  apply negb_true_iff. revert H1. clear. assert (A : forall c, implb (is_linebreak c) (existsb (Nat.eqb (code c)) [10; 11; 12; 13; 28; 29; 30; 133]) = true) by (apply all_chars_spec; vm_compute; reflexivity).
  intros H. destruct (is_linebreak c) eqn:E; auto. specialize (A c). rewrite E in A. cbn [implb] in A. apply existsb_exists in A as (n & Hn & Q). apply Nat.eqb_eq in Q. subst. contradiction.
Qed.
Lemma lines_text_join l : lines_text l = join nl (l ++ [""])%list.
Proof.
  induction l as [|x l IH]; [reflexivity|]. cbn [lines_text app]. rewrite join_cons; [now rewrite IH|]. now destruct l.
Qed.
Lemma splitlines_text l : Forall one_line_text l -> splitlines (lines_text l) = l.
Proof.
  intros H. rewrite lines_text_join, splitlines_join.
  - unfold drop_last_empty. rewrite rev_app_distr. cbn [rev app]. apply rev_involutive.
  - apply Forall_app. split; [|repeat constructor]. eapply Forall_impl; [|exact H]. apply one_line_iff.
Qed.
Lemma kept_twice {A} (f g : A -> bool) l : filter g (filter f l) = filter (fun x => f x && g x) l.
Proof. induction l as [|x l IH]; [reflexivity|]. cbn [filter]. destruct (f x); cbn [filter andb]; [destruct (g x)|]; now rewrite IH. Qed.

(** On Windows the errors are the lines with "error: " and the name of the file, less those that mention the keyword.
    With several keywords a line is dropped only if it mentions all of them. *)
Theorem C76_windows_partial : forall w f strict version ignore lines,
  one_word version -> one_word (p_dir f ++ p_name f) -> Forall one_line_text lines ->
  w (mypy_arguments strict version (p_dir f ++ p_name f)) = Some (Outcome (lines_text lines) "") ->
  exists errors, scan_file Windows w f strict version ignore = Val (Result (match errors with [] => true | _ => false end) errors) /\
    kept (fun l => ~ occurs "error: " l \/ ~ occurs (p_name f) l \/ (ignore <> [] /\ forall k, In k ignore -> occurs k l)) lines errors.
Proof.
  intros w f strict version ignore lines V F L W. unfold scan_file. rewrite windows_arguments, W by auto. cbn [o_stderr o_stdout]. cbn [String.eqb negb].
  rewrite splitlines_text by exact L. eexists. split; [reflexivity|]. rewrite !kept_twice. apply kept_filter. intros x _.
  assert (K : kept_line ignore x = false <-> ignore <> [] /\ forall k, In k ignore -> occurs k x).
  { unfold kept_line. destruct ignore as [|k ks]; [split; [discriminate|intros [N _]; congruence]|]. rewrite negb_false_iff, forallb_forall. split.
    - intros E. split; [discriminate|]. intros y Hy. apply occurs_iff. auto.
    - intros [_ E] y Hy. apply occurs_iff. auto. }
  rewrite !occurs_iff, <- K. destruct (contains "error: " x), (contains (p_name f) x), (kept_line ignore x); cbn [andb]; intuition congruence.
Qed.
Print Assumptions C76_windows_partial.
Definition file_lines : list string := ["src/a.py:3: error: Bad  [x]"; "src/b.py:1: error: Bad  [x]"; "src/a.py:4: error: Worse  [y]"; "src/a.py:4: note: why"].
Example C76_windows_example : let w := fun _ => Some (Outcome (lines_text file_lines) "") in
  one_word "3.8" /\ one_word "src/a.py" /\ Forall one_line_text file_lines /\
  scan_file Windows w (FilePath "src/" "a.py") true "3.8" ["Worse"] = Val (Result false ["src/a.py:3: error: Bad  [x]"]).
Proof.
  cbv zeta. split; [|split; [|split]]; [split; [discriminate|]..| |vm_compute; reflexivity].
  - cbn [chars]. repeat constructor; vm_compute; discriminate.
  - cbn [chars]. repeat constructor; vm_compute; discriminate.
  - unfold file_lines. repeat apply Forall_cons; try apply Forall_nil; unfold one_line_text; cbn [chars]; repeat constructor; vm_compute; intuition discriminate.
Qed.

(** If mypy writes to stderr the scan of a file is an error, on both platforms. *)
Theorem C76_stderr_partial : forall p w f strict version ignore o,
  w (process_arguments p (file_command strict version f)) = Some o -> o_stderr o <> "" -> scan_file p w f strict version ignore = Raise ValueError.
Proof. intros p w f strict version ignore o E N. unfold scan_file. rewrite E. now rewrite (proj2 (String.eqb_neq _ _) N). Qed.
Print Assumptions C76_stderr_partial.
Example C76_stderr_example : scan_file Windows (fun _ => Some (Outcome "a.py:1: error: Bad  [x]" "cannot read")) (FilePath "" "a.py") true "3.9" [] = Raise ValueError.
Proof. reflexivity. Qed.

(** With two keywords an error that mentions one of them is ignored by [scan_string] but not by [scan_file]. *)
Theorem C76_ignored_refuted : exists l ignore, Forall regular l /\
  (forall w, (forall a, w a = Some (Outcome (report l) "")) ->
     scan_string w "x" false "3.8" ignore = Val (Result true []) /\ exists e, scan_file Windows w (FilePath "" "a.py") false "3.8" ignore = Val (Result false [e])).
Proof.
  exists [Problem "a.py:1" "Bad" "x"], ["Bad"; "Worse"]. split.
  - repeat constructor; try (unfold said; cbn [append]; try plain_text; try (intros X; apply occurs_iff in X; vm_compute in X; discriminate)).
    all: unfold plain_char, code; cbn; try lia.
  - intros w H. unfold scan_string, scan_file. rewrite !H. split; [vm_compute; reflexivity|]. eexists. vm_compute. reflexivity.
Qed.
Print Assumptions C76_ignored_refuted.

(** *** C77: the printed result *)
Lemma numbered_nth ls : forall i k, nth_error (numbered i ls) k = option_map (fun l => str_of_nat (i + k) ++ " " ++ l) (nth_error ls k).
Proof.
  induction ls as [|x ls IH]; intros i [|k]; cbn [numbered nth_error option_map]; auto; [now rewrite Nat.add_0_r|].
  rewrite IH. now rewrite Nat.add_succ_comm.
Qed.
Lemma numbered_length ls : forall i, List.length (numbered i ls) = List.length ls.
Proof. induction ls as [|x ls IH]; intros i; cbn; auto. Qed.
(** The lines of a file are shown in order, each after its number; the numbers start with 0. *)
Theorem C77_lines_partial : forall name lines, Forall one_line_text lines ->
  exists shown, file_content_with_lineno (ScannedFile name (lines_text lines)) = Val (join nl shown) /\ List.length shown = List.length lines /\
    forall k line, nth_error lines k = Some line -> nth_error shown k = Some (str_of_nat k ++ " " ++ line).
Proof.
  intros name lines H. cbn [file_content_with_lineno]. rewrite splitlines_text by exact H. exists (numbered 0 lines). split; [reflexivity|]. split; [apply numbered_length|].
  intros k line E. rewrite numbered_nth, E. reflexivity.
Qed.
Print Assumptions C77_lines_partial.
Example C77_lines_example : Forall one_line_text ["import os"; "x = 1"] /\
  file_content_with_lineno (ScannedFile "a.py" (lines_text ["import os"; "x = 1"])) = Val ("0 import os" ++ nl ++ "1 x = 1").
Proof. split; [|vm_compute; reflexivity]. repeat apply Forall_cons; try apply Forall_nil; unfold one_line_text; cbn [chars]; repeat constructor; vm_compute; intuition discriminate. Qed.
(** The error of line 1 is shown beside a listing in which that line has the number 0. *)
Theorem C77_numbers_refuted : exists f lines w, (forall a, w a = Some (Outcome (lines_text ["a.py:1: error: Bad  [x]"]) "")) /\ nth_error lines 0 = Some f /\
  exists r, scan_file Windows w (FilePath "" "a.py") false "3.8" [] = Val r /\
    exists text, result_str r (ScannedFile "a.py" (lines_text lines)) = Val text /\ occurs "a.py:1: error: " text /\ occurs ("0 " ++ f) text /\ ~ occurs ("1 " ++ f) text.
Proof.
  exists "x = y", ["x = y"], (fun _ => Some (Outcome (lines_text ["a.py:1: error: Bad  [x]"]) "")). split; [reflexivity|]. split; [reflexivity|]. eexists. split; [reflexivity|].
  eexists. split; [reflexivity|]. split; [|split]; [apply occurs_iff; vm_compute; reflexivity..|]. intros X. apply occurs_iff in X. vm_compute in X. discriminate.
Qed.
Print Assumptions C77_numbers_refuted.
(** A failed result shows every error. *)
Theorem C77_errors_partial : forall r s text, r_success r = false -> result_str r s = Val text -> forall e, In e (r_errors r) -> occurs e text.
Proof.
  intros r s text N H e He. assert (J : occurs e (join nl (r_errors r))).
  { clear -He. induction (r_errors r) as [|x l IH]; [contradiction|]. destruct He as [->|He].
    - destruct l as [|y l]; [exists "", ""; cbn; now rewrite app_nil_r_s|]. rewrite join_cons by discriminate. exists "", (nl ++ join nl (y :: l)). reflexivity.
    - destruct l as [|y l]; [contradiction|]. rewrite join_cons by discriminate. destruct (IH He) as (a & b & ->). exists (x ++ nl ++ a), b. now rewrite !app_assoc_s. }
  destruct J as (a & b & J). unfold result_str in H. rewrite N in H. destruct s as [|n t]; cbn [andthen file_content_with_lineno] in H; injection H as <-; rewrite J.
  - exists ("Errors were found. " ++ a), b. now rewrite !app_assoc_s.
  - exists ("Errors were found. " ++ a), (b ++ nl ++ nl ++ "File scanned (" ++ n ++ "): " ++ nl ++ join nl (numbered 0 (splitlines t))). now rewrite !app_assoc_s.
Qed.
Print Assumptions C77_errors_partial.
Example C77_errors_example : result_str (Result false ["Bad  [x]"; "Worse  [y]"]) ScannedText = Val ("Errors were found. Bad  [x]" ++ nl ++ "Worse  [y]").
Proof. reflexivity. Qed.
(** The first words say whether the scan has succeeded. *)
Theorem C77_verdict_partial : forall r s text, result_str r s = Val text ->
  (r_success r = true -> text = "No errors") /\ (r_success r = false -> exists rest, text = "Errors were found. " ++ rest).
Proof.
  intros r s text H. unfold result_str in H. destruct (r_success r); [injection H as <-; split; [reflexivity | discriminate]|]. split; [discriminate|]. intros _.
  destruct s as [|n t]; cbn [andthen file_content_with_lineno] in H; injection H as <-; eexists; reflexivity.
Qed.
Print Assumptions C77_verdict_partial.
Example C77_verdict_example : result_str (Result true []) ScannedText = Val "No errors".
Proof. reflexivity. Qed.
