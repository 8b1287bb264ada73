(** The overloads that [LazyTypeHintLive] adds to a method. *)
From Coq Require Import Ascii String List Bool Arith ZArith Lia Permutation.
From Verif Require Import PyStr PyStrFacts Utils NamesFacts DocstringFacts Exc SpecNames SpecText SpecPyFile
  YamlFacts YamlLines YamlEntries PyFile PyFileFacts PyFilePrivate Live SpecLive LiveText.
Import ListNotations.
Local Open Scope string_scope.
Local Open Scope nat_scope.

(** ** Strings *)
Lemma contains_In sub s : contains sub s = true -> forall c, In c (chars sub) -> In c (chars s).
Proof. intros H c Hc. apply contains_spec in H as (a & b & ->). rewrite chars_str_In in *. rewrite !str_In_app. auto. Qed.
Lemma contains_absent sub s c : In c (chars sub) -> no_char c s -> contains sub s = false.
Proof.
  intros Hc Hn. destruct (contains sub s) eqn:E; [|reflexivity]. exfalso. apply no_char_chars in Hn. apply Hn. eapply contains_In; eauto.
Qed.

Lemma strip_starts a c r : str_forall is_space a = true -> is_space c = false ->
  exists r' e, strip (a ++ String c r) = String c r' /\ r = r' ++ e.
Proof.
  intros Ha Hc. unfold strip, strip_by. change (lstrip_by is_space) with lstrip. rewrite lstrip_blank.
  - destruct (rstrip_prefix is_space "" c r Hc) as (r' & E & e & He). exists r', e. auto.
  - now apply blank_spec.
  - intros W. apply is_space_white in W. congruence.
Qed.

Lemma strip_starts_with a q z r : str_forall is_space a = true -> (exists c q', q = String c q' /\ is_space c = false) -> is_space z = false ->
  exists r', strip (a ++ q ++ String z r) = q ++ String z r'.
Proof.
  intros Ha (c & q' & -> & Hc) Hz. unfold strip, strip_by. change (lstrip_by is_space) with lstrip. cbn [append]. rewrite lstrip_blank.
  - change (String c (q' ++ String z r)) with (String c q' ++ String z r).
    destruct (rstrip_prefix is_space (String c q') z r Hz) as (r' & -> & _). now exists r'.
  - now apply blank_spec.
  - intros W. apply is_space_white in W. congruence.
Qed.

(** A line that starts with something else than "d" defines nothing. *)
Lemma defines_not name a c r : str_forall is_space a = true -> is_space c = false -> c <> "d"%char -> defines name (a ++ String c r) = Val false.
Proof.
  intros Ha Hc Hd. unfold defines. destruct (strip_starts a c r Ha Hc) as (r' & e & -> & _). cbn [append startswith].
  destruct (Ascii.eqb "d" c) eqn:E; [apply Ascii.eqb_eq in E; congruence | reflexivity].
Qed.

(** ** The editing of a signature *)
Definition pre (name : string) (m : method) : string := "    def " ++ name ++ m_args1 m.
Definition decs (k : nat) : string := str_repeat k (overload_line ++ nl) ++ override_line ++ nl.
Definition group (k : nat) (line : string) : string := decs k ++ line.

Lemma str_repeat_forall p k s : str_forall p s = true -> str_forall p (str_repeat k s) = true.
Proof. intros H. induction k; [reflexivity|]. cbn [str_repeat]. now rewrite str_forall_app, H, IHk. Qed.
Lemma decs_no c k : no_char c (overload_line ++ nl) -> no_char c (override_line ++ nl) -> no_char c (decs k).
Proof. intros H1 H2. unfold decs. rewrite no_char_app. split; [now apply str_repeat_forall | exact H2]. Qed.

Lemma take_app_le a b n : n <= String.length a -> take n (a ++ b) = take n a.
Proof. revert n. induction a as [|c a IH]; intros [|n] H; cbn in *; auto; [lia|]. f_equal. apply IH. lia. Qed.
Lemma take_full a : take (String.length a) a = a.
Proof. induction a; cbn; congruence. Qed.

Lemma edit_text D c T1 ann a2 a2' ret e :
  no_char "c" D ->
  forall P, find_str "class_name" (P ++ "class_name") = Some (String.length P) ->
  no_char (chr 44) ann -> no_char (chr 41) ann ->
  a2 = String T1 a2' -> T1 = chr 44 \/ T1 = chr 41 ->
  no_char ">" ret -> no_char ">" e -> no_char ":" e ->
  edit_signature "class_name" c (D ++ P ++ "class_name:" ++ ann ++ a2 ++ "-> " ++ ret ++ ":" ++ e) =
  Val (D ++ P ++ "class_name:" ++ literal c ++ a2 ++ "-> " ++ c ++ ":" ++ e).
Proof.
  intros HD P HP A1 A2 E2 HT R1 R2 R3. unfold edit_signature.
  set (tail := a2 ++ "-> " ++ ret ++ ":" ++ e).
  assert (ET : tail = String T1 (a2' ++ "-> " ++ ret ++ ":" ++ e)) by (unfold tail; rewrite E2; reflexivity).
  replace (D ++ P ++ "class_name:" ++ ann ++ tail) with (D ++ P ++ "class_name" ++ (":" ++ ann ++ tail)) by reflexivity.
  assert (F : find_str "class_name" (D ++ P ++ "class_name" ++ (":" ++ ann ++ tail)) = Some (String.length (D ++ P))).
  { rewrite length_app_s. apply (find_str_skip "c" "lass_name"); [exact HD|]. now apply find_str_behind. }
  rewrite F. cbv zeta.
  set (first := String.length (D ++ P) + String.length "class_name").
  assert (E1 : D ++ P ++ "class_name" ++ (":" ++ ann ++ tail) = (D ++ P ++ "class_name") ++ (":" ++ ann ++ tail)) by (now rewrite !app_assoc_s).
  assert (L1 : first = String.length (D ++ P ++ "class_name")) by (unfold first; rewrite !length_app_s; lia).
  rewrite E1. rewrite L1 at 1. rewrite drop_app. rewrite <- app_assoc_s. rewrite ET at 1.
  rewrite scan_sep_app; [| rewrite no_char_app; split; [reflexivity | exact A1] | rewrite no_char_app; split; [reflexivity | exact A2] | exact HT].
  cbn [andthen].
  replace ((D ++ P ++ "class_name") ++ (":" ++ ann) ++ tail) with (((D ++ P ++ "class_name") ++ ":" ++ ann) ++ tail) by (now rewrite !app_assoc_s).
  replace (first + String.length (":" ++ ann)) with (String.length ((D ++ P ++ "class_name") ++ ":" ++ ann)) by (rewrite length_app_s, <- L1; reflexivity).
  rewrite drop_app.
  replace (take (first + 1) (((D ++ P ++ "class_name") ++ ":" ++ ann) ++ tail)) with ((D ++ P ++ "class_name") ++ ":").
  2: { replace (((D ++ P ++ "class_name") ++ ":" ++ ann) ++ tail) with (((D ++ P ++ "class_name") ++ ":") ++ ann ++ tail) by (now rewrite !app_assoc_s).
       replace (first + 1) with (String.length ((D ++ P ++ "class_name") ++ ":")) by (rewrite length_app_s, <- L1; reflexivity).
       now rewrite take_app. }
  change (" Literal[""" ++ c ++ """]") with (literal c).
  set (A := ((D ++ P ++ "class_name") ++ ":") ++ literal c ++ a2).
  replace (((D ++ P ++ "class_name") ++ ":") ++ literal c ++ tail) with (A ++ "->" ++ " " ++ ret ++ ":" ++ e)
    by (unfold A, tail; rewrite !app_assoc_s; reflexivity).
  rewrite (rfind_last "-" ">" A).
  2: { change (">" ++ " " ++ ret ++ ":" ++ e) with (String ">" (" " ++ ret ++ ":" ++ e)). cbn [contains startswith].
       change (Ascii.eqb "-" ">") with false. cbn [andb orb]. apply (contains_absent _ _ ">"%char); [cbn; auto|].
       rewrite !no_char_app. repeat split; auto. }
  replace (A ++ "->" ++ " " ++ ret ++ ":" ++ e) with ((A ++ "->" ++ " " ++ ret) ++ ":" ++ e) by (now rewrite !app_assoc_s).
  rewrite (rfind_last ":" ""); [|cbn [append]; now apply contains_no].
  rewrite drop_app.
  replace ((A ++ "->" ++ " " ++ ret) ++ ":" ++ e) with ((A ++ "-> ") ++ ret ++ ":" ++ e) by (rewrite !app_assoc_s; reflexivity).
  replace (String.length A + 2 + 1) with (String.length (A ++ "-> ")) by (rewrite length_app_s; cbn; lia).
  rewrite take_app. f_equal. unfold A. rewrite !app_assoc_s. reflexivity.
Qed.

(** ** Searching *)
Lemma search_method_app ab name all a b : forall idx,
  search_method_from ab idx name all (a ++ b)%list =
  andthen (search_method_from ab idx name all a) (fun x =>
  andthen (search_method_from ab (idx + List.length a) name all b) (fun y => Val (x ++ y)%list)).
Proof.
  induction a as [|l a IH]; intros idx; cbn [app search_method_from andthen].
  - cbn [List.length]. rewrite Nat.add_0_r. now destruct search_method_from.
  - destruct (defines name l) as [[]|e|]; cbn [andthen]; [| |reflexivity|reflexivity].
    + destruct (if ab then _ else _); cbn [andthen]; [|reflexivity|reflexivity]. rewrite IH. cbn [List.length].
      replace (idx + S (List.length a)) with (S idx + List.length a) by lia.
      destruct (search_method_from ab (S idx) name all a); cbn [andthen]; [|reflexivity|reflexivity].
      destruct (search_method_from ab (S idx + List.length a) name all b); reflexivity.
    + rewrite IH. cbn [List.length]. now replace (idx + S (List.length a)) with (S idx + List.length a) by lia.
Qed.

Lemma search_method_none ab name all ls : forall idx, Forall (fun l => defines name l = Val false) ls ->
  search_method_from ab idx name all ls = Val [].
Proof. induction ls as [|l ls IH]; intros idx H; [reflexivity|]. inversion H; subst. cbn [search_method_from]. rewrite H2. cbn [andthen]. auto. Qed.

Lemma last_snoc {A} (a : list A) x d : last (a ++ [x]) d = x.
Proof. induction a as [|y a IH]; [reflexivity|]. cbn. destruct (a ++ [x])%list eqn:E; [destruct a; discriminate | exact IH]. Qed.

Lemma line_at_before (A D rest : list string) : A <> [] ->
  line_at (A ++ D ++ rest)%list (Z.of_nat (List.length A + List.length D) - 1) = Val (last (A ++ D) "").
Proof.
  intros HA. rewrite <- app_length, app_assoc.
  assert (HN : (A ++ D)%list <> []) by (destruct A; [congruence | discriminate]).
  rewrite (line_at_above (A ++ D)%list rest ((A ++ D) ++ rest)%list eq_refl) by (intros E; apply app_eq_nil in E; tauto).
  f_equal. unfold line_above. destruct (A ++ D)%list; [congruence | reflexivity].
Qed.

Lemma walk_up_top A D : forall rest fuel, A <> [] -> contains "@" (last A "") = false -> Forall (fun l => contains "@" l = true) D ->
  List.length D < fuel ->
  walk_up fuel (A ++ D ++ rest)%list (Z.of_nat (List.length A + List.length D)) = Val (Z.of_nat (List.length A)).
Proof.
  induction D as [|x D IH] using rev_ind; intros rest fuel HA HL HD HF; (destruct fuel as [|fuel]; [lia|]); cbn [walk_up];
    rewrite line_at_before by assumption; cbn [andthen].
  - rewrite app_nil_r, HL. cbn [List.length]. now rewrite Nat.add_0_r.
  - rewrite app_assoc, last_snoc. apply Forall_app in HD as [HD Hx]. inversion Hx; subst. rewrite H1.
    rewrite <- (app_assoc D). rewrite app_length in *. cbn [List.length] in *.
    replace (Z.of_nat (List.length A + (List.length D + 1)) - 1)%Z with (Z.of_nat (List.length A + List.length D)) by lia.
    cbn [app]. apply IH; auto. lia.
Qed.

Lemma walk_up_some A D : forall rest fuel, A <> [] -> contains "@" (last A "") = false -> List.length D < fuel ->
  exists j, walk_up fuel (A ++ D ++ rest)%list (Z.of_nat (List.length A + List.length D)) = Val j.
Proof.
  induction D as [|x D IH] using rev_ind; intros rest fuel HA HL HF; (destruct fuel as [|fuel]; [lia|]); cbn [walk_up];
    rewrite line_at_before by assumption; cbn [andthen].
  - rewrite app_nil_r, HL. eauto.
  - destruct (contains "@" (last (A ++ D ++ [x]) "")); [|eauto].
    rewrite <- (app_assoc D). rewrite app_length in *. cbn [List.length] in *.
    replace (Z.of_nat (List.length A + (List.length D + 1)) - 1)%Z with (Z.of_nat (List.length A + List.length D)) by lia.
    cbn [app]. apply IH; auto. lia.
Qed.

Lemma search_method_some name A : A <> [] -> contains "@" (last A "") = false -> forall ls D rest,
  Forall (fun l => exists b, defines name l = Val b) ls ->
  exists xs, search_method_from true (List.length A + List.length D) name (A ++ D ++ ls ++ rest)%list ls = Val xs.
Proof.
  intros HA HL. induction ls as [|l ls IH]; intros D rest H; [eexists; reflexivity|]. inversion H as [|? ? [b Hb] Hr]; subst. cbn [search_method_from].
  rewrite Hb. cbn [andthen].
  destruct (IH (D ++ [l])%list rest Hr) as [xs E]. rewrite app_length in E. cbn [List.length] in E.
  replace (List.length A + (List.length D + 1)) with (S (List.length A + List.length D)) in E by lia.
  rewrite <- (app_assoc D) in E. cbn [app] in E. cbn [app].
  destruct b; [|eauto].
  destruct (walk_up_some A D (l :: ls ++ rest)%list (List.length A + List.length D + List.length (A ++ D ++ l :: ls ++ rest)%list + 1) HA HL) as [j Ej];
    [rewrite !app_length; lia|].
  rewrite Ej. cbn [andthen]. rewrite E. cbn [andthen]. eauto.
Qed.

(** The top of the last definition. *)
Lemma search_method_last name L f D d R :
  L <> [] -> contains "@" (last L "") = false -> contains "@" (last (L ++ f) "") = false ->
  Forall (fun l => defines name l = Val false) L ->
  Forall (fun l => exists b, defines name l = Val b) f ->
  Forall (fun l => defines name l = Val false /\ contains "@" l = true) D ->
  defines name d = Val true ->
  Forall (fun l => defines name l = Val false) R ->
  exists xs, search_method true name (L ++ f ++ (D ++ [d]) ++ R)%list = Val (xs ++ [Z.of_nat (List.length L + List.length f)])%list.
Proof.
  intros HL HL1 HL2 DL Df DD Dd DR. unfold search_method. set (all := (L ++ f ++ (D ++ [d]) ++ R)%list).
  replace (search_method_from true 0 name all all) with (search_method_from true 0 name all (L ++ f ++ (D ++ [d]) ++ R)%list) by reflexivity.
  rewrite search_method_app, (search_method_none _ _ _ L) by assumption. cbn [andthen]. rewrite search_method_app.
  destruct (search_method_some name L HL HL1 f [] ((D ++ [d]) ++ R)%list Df) as [xs E]. cbn [app List.length] in E. rewrite Nat.add_0_r in E.
  fold all in E. cbn [Nat.add]. rewrite E. cbn [andthen]. exists xs.
  rewrite <- (app_assoc D [d] R), search_method_app, (search_method_none _ _ _ D).
  2: { eapply Forall_impl; [|exact DD]. cbn. tauto. }
  cbn [andthen app search_method_from]. rewrite Dd. cbn [andthen].
  assert (W : walk_up (List.length L + List.length f + List.length D + List.length all + 1) all (Z.of_nat (List.length L + List.length f + List.length D)) =
    Val (Z.of_nat (List.length L + List.length f))).
  { rewrite <- (app_length L f). unfold all. replace (L ++ f ++ (D ++ [d]) ++ R)%list with ((L ++ f) ++ D ++ (d :: R))%list by (now rewrite <- !app_assoc).
    apply walk_up_top; auto.
    - destruct L; [congruence | discriminate].
    - eapply Forall_impl; [|exact DD]. cbn. tauto.
    - rewrite !app_length. lia. }
  rewrite W. cbn [andthen]. rewrite (search_method_none _ _ _ R) by assumption. reflexivity.
Qed.

Lemma last_of_snoc xs x : last_of (xs ++ [x])%list = Val x.
Proof. unfold last_of. now rewrite rev_app_distr. Qed.

(** Every definition is directly below "@override": no decorator is found. *)
Fixpoint prev_ok (name p : string) (ls : list string) : Prop :=
  match ls with
  | [] => True
  | l :: r => (defines name l = Val false \/ (defines name l = Val true /\ p = override_line)) /\ prev_ok name l r
  end.

Lemma prev_ok_app name a b : forall p, prev_ok name p (a ++ b)%list <-> prev_ok name p a /\ prev_ok name (last a p) b.
Proof.
  induction a as [|x a IH]; intros p; cbn [app prev_ok]; [cbn; tauto|]. rewrite IH.
  assert (E : last (x :: a) p = last a x). { destruct a as [|y a]; [reflexivity|]. cbn [last]. clear. revert y. induction a as [|z a IH]; intros y; [reflexivity|]. cbn [last] in *. apply IH. }
  rewrite E. tauto.
Qed.
Lemma prev_ok_none name ls : forall p, Forall (fun l => defines name l = Val false) ls -> prev_ok name p ls.
Proof. induction ls as [|l r IH]; intros p H; cbn; [exact I|]. inversion H; subst. auto. Qed.
Lemma prev_ok_defines name ls : forall p, prev_ok name p ls -> Forall (fun l => exists b, defines name l = Val b) ls.
Proof. induction ls as [|l r IH]; intros p H; [constructor|]. cbn in H. destruct H as [H Hr]. constructor; [|eauto]. destruct H as [H | [H _]]; eauto. Qed.

Lemma search_method_prev name all ls : forall pre, pre <> [] -> all = (pre ++ ls)%list -> prev_ok name (last pre "") ls ->
  exists xs, search_method_from false (List.length pre) name all ls = Val xs /\
    Forall (fun i => line_at all (i - 1) = Val override_line) xs.
Proof.
  induction ls as [|l r IH]; intros pre HP E H; [eexists; split; [reflexivity | constructor]|].
  cbn [prev_ok] in H. destruct H as [H Hr]. cbn [search_method_from].
  destruct (IH (pre ++ [l])%list) as (xs & Ex & Fx); [destruct pre; discriminate | now rewrite <- app_assoc | now rewrite last_snoc |].
  rewrite app_length in Ex. cbn [List.length] in Ex. rewrite Nat.add_1_r in Ex.
  destruct H as [H | [H HO]]; rewrite H; cbn [andthen]; [eauto|].
  rewrite Ex. cbn [andthen]. eexists; split; [reflexivity|]. constructor; [|exact Fx].
  pose proof (line_at_before pre [] (l :: r) HP) as B. cbn [app List.length] in B. rewrite Nat.add_0_r, app_nil_r in B. now rewrite E, B, HO.
Qed.

Lemma search_decorator_none name x ls : prev_ok name x ls -> (match ls with [] => True | l :: _ => defines name l = Val false end) ->
  search_decorator "overload" name ls = Val [].
Proof.
  intros H H0. unfold search_decorator.
  assert (S : exists xs, search_method false name ls = Val xs /\ Forall (fun i => line_at ls (i - 1) = Val override_line) xs).
  { destruct ls as [|l r]; [exists []; split; [reflexivity | constructor]|]. cbn [prev_ok] in H. destruct H as [_ H].
    unfold search_method. cbn [search_method_from]. rewrite H0. cbn [andthen].
    apply (search_method_prev name (l :: r) r [l]); [discriminate | reflexivity | exact H]. }
  destruct S as (xs & -> & F). cbn [andthen].
  assert (E : exc_map (fun idx => andthen (line_at ls (idx - 1)) (fun l =>
      Val (if contains "@" l && contains ("@" ++ "overload") l then [(idx - 1)%Z] else []))) xs = Val (map (fun _ => []) xs)).
  { induction F as [|i xs Hi F IH]; [reflexivity|]. cbn [exc_map]. rewrite Hi. cbn [andthen].
    change (contains "@" override_line && contains ("@" ++ "overload") override_line) with false. cbn [andthen]. rewrite IH. reflexivity. }
  rewrite E. cbn [andthen]. f_equal. clear. induction xs; [reflexivity | exact IHxs].
Qed.

Lemma walk_down_stop h : forall A s rest fuel, Forall (fun l => contains ")" l || contains ":" l = false) h ->
  contains ")" s || contains ":" s = true -> List.length h < fuel ->
  walk_down fuel (A ++ h ++ s :: rest)%list (Z.of_nat (List.length A)) = Val (Z.of_nat (List.length A + List.length h)).
Proof.
  induction h as [|x h IH]; intros A s rest fuel Hh Hs HF; (destruct fuel as [|fuel]; [cbn in HF; lia|]); cbn [walk_down app].
  - rewrite line_at_nat. cbn [andthen]. rewrite Hs. cbn [List.length]. now rewrite Nat.add_0_r.
  - rewrite line_at_nat. cbn [andthen]. inversion Hh; subst. rewrite H1.
    specialize (IH (A ++ [x])%list s rest fuel H2 Hs). rewrite app_length in IH. cbn [List.length] in *.
    rewrite <- app_assoc in IH. cbn [app] in IH.
    replace (Z.of_nat (List.length A) + 1)%Z with (Z.of_nat (List.length A + 1)) by lia. rewrite IH by lia. f_equal. lia.
Qed.

Lemma slice_mid {A} (a b c : list A) :
  slice (Z.of_nat (List.length a)) (Z.of_nat (List.length a + List.length b)) (a ++ b ++ c) = b.
Proof.
  unfold slice, clamp. rewrite !app_length.
  destruct (0 <=? Z.of_nat (List.length a))%Z eqn:E1; [|apply Z.leb_gt in E1; lia].
  destruct (0 <=? Z.of_nat (List.length a + List.length b))%Z eqn:E2; [|apply Z.leb_gt in E2; lia].
  rewrite !Nat2Z.id, !Nat.min_l by lia. rewrite skipn_app, skipn_all, Nat.sub_diag. cbn [app skipn].
  replace (List.length a + List.length b - List.length a) with (List.length b) by lia.
  rewrite firstn_app, firstn_all, Nat.sub_diag. cbn. apply app_nil_r.
Qed.

Lemma add_line_at a x b : add_line (Z.of_nat (List.length a)) x (a ++ b)%list = (a ++ x :: b)%list.
Proof.
  unfold add_line, py_insert. destruct (0 <=? Z.of_nat (List.length a))%Z eqn:E1; [|apply Z.leb_gt in E1; lia].
  rewrite Nat2Z.id. unfold insert_at. rewrite firstn_app, firstn_all, Nat.sub_diag, skipn_app, skipn_all, Nat.sub_diag. cbn. now rewrite app_nil_r.
Qed.
