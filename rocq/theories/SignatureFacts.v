(** Facts about [signature_imports]. *)
From Coq Require Import Ascii String List Bool Arith Lia.
From Verif Require Import PyStr PyStrFacts Utils SpecNames SpecText NamesFacts DocstringFacts YamlFacts YamlComments SpecDeclaration Imports Emit SpecSignature DeclarationFacts.
Import ListNotations.
Local Open Scope string_scope.
Local Open Scope nat_scope.

Lemma hint_char_spec c : hint_char c = true <-> hint_character c.
Proof.
  unfold hint_char, hint_character. rewrite andb_true_iff, !negb_true_iff. rewrite <- is_space_white. change (code c) with (ord c).
  split; intros [A B]; split.
  - intros C. congruence.
  - now apply Nat.eqb_neq.
  - now apply not_true_iff_false.
  - now apply Nat.eqb_neq.
Qed.
Lemma take_while_spec p s : s = take_while p s ++ drop (String.length (take_while p s)) s /\ Forall (fun c => p c = true) (chars (take_while p s)) /\
  (drop (String.length (take_while p s)) s = "" \/ exists c r, drop (String.length (take_while p s)) s = String c r /\ p c = false).
Proof.
  induction s as [|c s (I1 & I2 & I3)]; cbn [take_while]; [repeat split; auto; constructor|]. destruct (p c) eqn:E.
  - cbn [String.length String.append drop chars]. rewrite <- I1. repeat split; auto.
  - cbn [String.length String.append drop chars]. split; [reflexivity|]. split; [constructor|]. right. eauto.
Qed.
Lemma take_while_exact p h rest : Forall (fun c => p c = true) (chars h) -> (rest = "" \/ exists c r, rest = String c r /\ p c = false) -> take_while p (h ++ rest) = h.
Proof.
  intros F H. induction h as [|c h IH]; cbn [String.append].
  - destruct H as [->|(c & r & -> & H)]; [reflexivity|]. cbn [take_while]. now rewrite H.
  - inversion F; subst. cbn [take_while]. rewrite H2. now rewrite IH.
Qed.
Lemma take_hint h rest : hint h -> hint_ends rest -> take_while hint_char (h ++ rest) = h.
Proof.
  intros [_ F] E. apply take_while_exact.
  - rewrite Forall_forall in *. intros c Hc. now apply hint_char_spec, F.
  - destruct E as [->|(c & r & -> & E)]; [now left|right; exists c, r; split; auto]. apply not_true_iff_false. now rewrite hint_char_spec.
Qed.
Lemma take_hint_spec s : (take_while hint_char s = "" \/ hint (take_while hint_char s)) /\ hint_ends (drop (String.length (take_while hint_char s)) s).
Proof.
  destruct (take_while_spec hint_char s) as (_ & F & E). split.
  - destruct (take_while hint_char s); [now left|right]. split; [discriminate|]. rewrite Forall_forall in *. intros c Hc. now apply hint_char_spec, F.
  - destruct E as [E|(c & r & E & N)]; [now left|right; exists c, r; split; auto]. rewrite <- hint_char_spec. congruence.
Qed.
Lemma no_hint s : take_while hint_char s = "" -> s = "" \/ exists c r, s = String c r /\ hint_char c = false.
Proof. destruct s as [|c r]; [now left|]. cbn [take_while]. destruct (hint_char c) eqn:E; [discriminate|]. right. eauto. Qed.
Lemma comma_of c : hint_char c = false -> is_space c = false -> c = ","%char.
Proof. unfold hint_char. intros H E. rewrite E in H. cbn in H. apply negb_false_iff, Nat.eqb_eq in H. rewrite <- (ascii_nat_embedding c). unfold ord in H. now rewrite H. Qed.
Lemma colon_of c : ord c = 58 -> c = ":"%char.
Proof. intros H. rewrite <- (ascii_nat_embedding c). unfold ord in H. now rewrite H. Qed.
Lemma no_hint_lstrip s : take_while hint_char (lstrip s) = "" -> exists gap, blank gap /\ (s = gap \/ exists r, s = gap ++ "," ++ r).
Proof.
  intros H. destruct (lstrip_spec s) as (gap & E & B & L). exists gap. split; auto. apply no_hint in H as [H|(c & r & H & N)].
  - left. rewrite H, app_nil_r_s in E. exact E.
  - right. destruct L as [L|(c' & r' & L & N')]; [congruence|]. assert (c' = c) by congruence. subst c'. exists r. rewrite (comma_of c N N') in H. rewrite E at 1. now rewrite H.
Qed.
Lemma lstrip_blank_all gap : blank gap -> lstrip gap = "".
Proof. intros B. induction gap as [|c g IH]; [reflexivity|]. inversion B; subst. unfold lstrip in *. cbn [lstrip_by]. rewrite (proj2 (is_space_white c)) by auto. now apply IH. Qed.
Lemma lstrip_hint gap h rest : blank gap -> hint h -> lstrip (gap ++ h ++ rest) = h ++ rest.
Proof.
  intros B [N F]. apply lstrip_exact; auto. destruct h as [|c h]; [now destruct N|]. exists c, (h ++ rest). split; auto. inversion F as [|? ? [W _]]; subst.
  apply not_true_iff_false. now rewrite is_space_white.
Qed.
Lemma lstrip_comma gap r : blank gap -> lstrip (gap ++ "," ++ r) = "," ++ r.
Proof. intros B. apply lstrip_exact; auto. exists ","%char, r. auto. Qed.
Lemma lstrip_length s : String.length (lstrip s) <= String.length s.
Proof. unfold lstrip. induction s as [|c s IH]; cbn [lstrip_by]; auto. destruct (is_space c); cbn [String.length] in *; lia. Qed.
Lemma drop_length n s : String.length (drop n s) <= String.length s.
Proof. revert n. induction s as [|c s IH]; intros [|n]; cbn [drop String.length]; auto; try (specialize (IH n); lia). Qed.
Lemma hints_blank gap : blank gap -> Hints gap [].
Proof. intros B. induction gap as [|c g IH]; [apply hints_nil|]. inversion B; subst. apply hints_other; [|now apply IH]. intros E. unfold white in H1. rewrite E in H1. cbn in H1. intuition discriminate. Qed.

Lemma findall_hints_sound : forall f s, String.length s <= f -> Hints s (findall_hints f s).
Proof.
  induction f as [|f IH]; intros [|c r] L; cbn [findall_hints String.length] in *; try apply hints_nil; [lia|].
  destruct (Nat.eqb (ord c) 58) eqn:E.
  - apply Nat.eqb_eq in E. pose proof (colon_of c E) as ->. cbv zeta. destruct (take_while hint_char (lstrip r)) as [|d h] eqn:T.
    + destruct (no_hint_lstrip r T) as (gap & B & [->|(r' & ->)]).
      * assert (H : findall_hints f gap = []).
        { clear - B. revert f B. induction gap as [|c g IH]; intros [|f] B; try reflexivity. cbn [findall_hints]. inversion B; subst.
          destruct (Nat.eqb (ord c) 58) eqn:E; [|now apply IH]. apply Nat.eqb_eq in E. unfold white, code in H1. unfold ord in E. rewrite E in H1. cbn in H1. intuition discriminate. }
        rewrite H. now apply (hints_end gap).
      * apply (hints_comma gap); auto. apply IH. lia.
    + destruct (take_while_spec hint_char (lstrip r)) as (S1 & _ & _). destruct (take_hint_spec (lstrip r)) as (S2 & S3).
      rewrite T in *. destruct S2 as [S2|S2]; [discriminate|]. destruct (lstrip_spec r) as (gap & R1 & R2 & _).
      pose proof (lstrip_length r) as L1.
      remember (drop (String.length (String d h)) (lstrip r)) as rest eqn:Er.
      assert (L2 : String.length rest <= String.length (lstrip r)) by (subst rest; apply drop_length).
      rewrite R1, S1. apply (hints_found gap); auto. apply IH. lia.
  - apply Nat.eqb_neq in E. apply hints_other; auto. apply IH. lia.
Qed.
Lemma findall_hints_complete s hs : Hints s hs -> forall f, String.length s <= f -> findall_hints f s = hs.
Proof.
  induction 1; intros f L.
  - destruct f; reflexivity.
  - destruct f as [|f]; cbn [String.length] in L; [lia|]. cbn [findall_hints]. apply Nat.eqb_neq in H. change (ord c) with (code c). rewrite H. apply IHHints. lia.
  - destruct f as [|f]; [cbn [String.append String.length] in L; lia|]. cbn [String.append findall_hints]. cbn [String.append String.length] in L.
    change (Nat.eqb (ord ":") 58) with true. cbv iota zeta. rewrite lstrip_hint by auto. rewrite take_hint by auto. destruct h as [|d h]; [now destruct H0|]. f_equal. rewrite drop_app. apply IHHints.
    rewrite !length_app_s in L. lia.
  - destruct f as [|f]; [cbn [String.append String.length] in L; lia|]. change (":" ++ gap ++ "," ++ r) with (String ":" (gap ++ "," ++ r)) in *. cbn [findall_hints String.length] in *.
    change (Nat.eqb (ord ":") 58) with true. cbv iota zeta. rewrite lstrip_comma by auto. cbn [String.append take_while]. change (hint_char ",") with false. cbv iota. apply IHHints. lia.
  - destruct f as [|f]; [cbn [String.append String.length] in L; lia|]. change (":" ++ gap) with (String ":" gap) in *. cbn [findall_hints].
    change (Nat.eqb (ord ":") 58) with true. cbv iota zeta. rewrite lstrip_blank_all by auto. cbn [take_while].
    clear L. revert f. induction gap as [|c g IH]; intros [|f]; try reflexivity. inversion H; subst. cbn [findall_hints].
    destruct (Nat.eqb (ord c) 58) eqn:E; [|now apply IH]. apply Nat.eqb_eq in E. unfold white, code in H2. unfold ord in E. rewrite E in H2. cbn in H2. intuition discriminate.
Qed.

Lemma arrow_begins s : startswith "->" s = true <-> exists r, s = "->" ++ r.
Proof. apply startswith_spec. Qed.
Lemma result_blank gap : blank gap -> Result gap None.
Proof.
  intros B. induction gap as [|c g IH]; [apply result_none|]. inversion B; subst. apply result_other; [|now apply IH].
  intros r E. injection E as -> _. unfold white in H1. cbn in H1. intuition discriminate.
Qed.
Lemma search_skip c s : startswith "->" (String c s) = false -> search_return (String c s) = search_return s.
Proof. intros H. cbn [search_return]. now rewrite H. Qed.
Lemma search_arrow r : search_return ("->" ++ r) =
  match take_while hint_char (lstrip r) with "" => match lstrip r with "" => Some "" | _ => search_return (String ">" r) end | h => Some h end.
Proof. reflexivity. Qed.
Lemma search_greater r : search_return (String ">" r) = search_return r.
Proof. apply search_skip. reflexivity. Qed.
Lemma search_return_sound s : Result s (search_return s).
Proof.
  assert (H : forall n s, String.length s <= n -> Result s (search_return s)); [|eapply H; reflexivity]. clear s.
  induction n as [|n IH]; intros [|c s] L; cbn [String.length] in L; try apply result_none; [lia|].
  destruct (startswith "->" (String c s)) eqn:E.
  - apply arrow_begins in E as (r & E). rewrite E. rewrite search_arrow. assert (Ls : String.length r < String.length s) by (cbn [String.append] in E; injection E as _ ->; cbn [String.length]; lia).
    destruct (take_while hint_char (lstrip r)) as [|d h] eqn:T.
    + destruct (no_hint_lstrip r T) as (gap & B & [->|(r' & ->)]).
      * rewrite lstrip_blank_all by auto. now apply result_end.
      * rewrite lstrip_comma by auto. cbn [String.append]. rewrite search_greater. apply (result_comma gap); auto. apply IH. cbn [String.append]. cbn [String.append] in Ls. lia.
    + destruct (take_while_spec hint_char (lstrip r)) as (S1 & _ & _). destruct (take_hint_spec (lstrip r)) as (S2 & S3).
      rewrite T in *. destruct S2 as [S2|S2]; [discriminate|]. destruct (lstrip_spec r) as (gap & R1 & R2 & _).
      rewrite R1. rewrite S1. now apply (result_found gap).
  - rewrite search_skip by auto. apply result_other; [|apply IH; lia]. intros r E'. assert (startswith "->" (String c s) = true) by (apply arrow_begins; eauto). congruence.
Qed.
Lemma search_return_complete s o : Result s o -> search_return s = o.
Proof.
  induction 1.
  - reflexivity.
  - rewrite search_arrow, lstrip_hint, take_hint by auto. destruct h; [now destruct H0|reflexivity].
  - rewrite search_arrow, lstrip_blank_all by auto. reflexivity.
  - rewrite search_arrow, lstrip_comma by auto. cbn [String.append take_while]. change (hint_char ",") with false. cbv iota. rewrite search_greater. exact IHResult.
  - rewrite search_skip; auto. apply not_true_iff_false. rewrite arrow_begins. intros (r & E). now apply (H r).
Qed.

Lemma replace_fuel_sound : forall f s, String.length s <= f -> Unpaired s (replace_fuel f "):" "" s).
Proof.
  induction f as [|f IH]; intros [|c s] L; cbn [String.length replace_fuel] in *; try apply unpaired_nil; [lia|].
  destruct (startswith "):" (String c s)) eqn:E.
  - apply startswith_spec in E as (r & E). rewrite E. change (drop (String.length "):") ("):" ++ r)) with r. apply unpaired_pair. apply IH.
    cbn [String.append] in E. injection E as _ ->. cbn [String.length] in L. lia.
  - apply unpaired_other; [|apply IH; lia]. intros r E'. assert (startswith "):" (String c s) = true) by (apply startswith_spec; eauto). congruence.
Qed.
Lemma replace_fuel_complete s t : Unpaired s t -> forall f, String.length s <= f -> replace_fuel f "):" "" s = t.
Proof.
  induction 1; intros f L.
  - destruct f; reflexivity.
  - destruct f as [|f]; [cbn [String.append String.length] in L; lia|]. change (replace_fuel (S f) "):" "" ("):" ++ s)) with (replace_fuel f "):" "" s).
    apply IHUnpaired. cbn [String.append String.length] in L. lia.
  - destruct f as [|f]; cbn [String.length] in L; [lia|]. cbn [replace_fuel]. destruct (startswith "):" (String c s)) eqn:E.
    + apply startswith_spec in E as (r & E). exfalso. now apply (H r).
    + f_equal. apply IHUnpaired. lia.
Qed.
Lemma replace_spec s t : Unpaired s t <-> replace "):" "" s = t.
Proof. unfold replace. split; [intros H; eapply replace_fuel_complete; eauto|intros <-; apply replace_fuel_sound; auto]. Qed.

Lemma strip_hint h : hint h -> strip h = h.
Proof.
  intros [_ F]. assert (K : str_forall (fun c => negb (is_space c)) h = true).
  { apply Forall_chars. rewrite Forall_forall in *. intros c Hc. apply F in Hc as [W _]. apply negb_true_iff, not_true_iff_false. now rewrite is_space_white. }
  clear F. unfold strip. assert (A : rstrip_by is_space h = h).
  { induction h as [|c h IH]; [reflexivity|]. cbn [str_forall] in K. apply andb_true_iff in K as [K1 K2]. cbn [rstrip_by]. rewrite IH by auto. apply negb_true_iff in K1. rewrite K1. now destruct h. }
  destruct h as [|c h]; [reflexivity|]. cbn [str_forall] in K. apply andb_true_iff in K as [K1 _]. apply negb_true_iff in K1.
  unfold strip_by. try rewrite A. cbn [lstrip_by]. rewrite K1. first [exact A|reflexivity].
Qed.
Lemma rstrip_colon s t : Uncoloned s t <-> rstrip_by (fun c => Nat.eqb (ord c) 58) s = t.
Proof.
  split.
  - intros (e & -> & F & N).
    assert (A : rstrip_by (fun c => Nat.eqb (ord c) 58) e = "").
    { induction e as [|c e IH]; [reflexivity|]. inversion F; subst. cbn [rstrip_by]. rewrite IH by auto. change (ord c) with (code c). now rewrite H1. }
    induction t as [|c t IH]; [exact A|]. cbn [String.append rstrip_by]. destruct t as [|d t].
    + rewrite IH; [|intros [|? p] E; discriminate]. destruct (Nat.eqb (ord c) 58) eqn:E; [|reflexivity]. apply Nat.eqb_eq, colon_of in E as ->. now destruct (N "").
    + rewrite IH; [reflexivity|]. intros p E. apply (N (String c p)). cbn [String.append]. now rewrite <- E.
  - intros <-. destruct (rstrip_by_app (fun c => Nat.eqb (ord c) 58) s) as (b & E & F). exists b. split; [exact E|]. split.
    + apply Forall_chars in F. rewrite Forall_forall in *. intros c Hc. now apply Nat.eqb_eq, F.
    + intros p P. destruct (rstrip_last (fun c => Nat.eqb (ord c) 58) s) as [K|(r & c & K & N)]; rewrite K in P.
      * destruct p; discriminate.
      * assert (c = ":"%char); [|subst c; discriminate]. clear - P. revert p P. induction r as [|x r IH]; intros [|y p] P; cbn [String.append] in P.
        -- now injection P.
        -- destruct p; discriminate.
        -- destruct r; discriminate.
        -- injection P as _ P. eauto.
Qed.

(** ** Words *)
Lemma split_either (x y a z : string) : x ++ y = a ++ z -> (exists d, a = x ++ d /\ y = d ++ z) \/ (exists d, x = a ++ d /\ z = d ++ y).
Proof.
  revert a. induction x as [|c x IH]; intros a H; [left; exists a; auto|]. destruct a as [|e a]; [right; exists (String c x); auto|].
  cbn [String.append] in H. injection H as -> H. apply IH in H as [(d & -> & ->)|(d & -> & ->)]; [left|right]; exists d; auto.
Qed.
Definition wordy (s : string) : Prop := Forall word_character (chars s).
Lemma wordy_app a b : wordy (a ++ b) <-> wordy a /\ wordy b.
Proof. unfold wordy. rewrite YamlFacts.chars_app, Forall_app. reflexivity. Qed.
Lemma wordy_last p c : wordy (p ++ String c "") -> word_character c.
Proof. rewrite wordy_app. intros [_ H]. now inversion H. Qed.
Lemma last_char (s : string) : s = "" \/ exists p c, s = p ++ String c "".
Proof. induction s as [|c s [->|(p & d & ->)]]; [now left|right; exists "", c; auto|right; exists (String c p), d; auto]. Qed.
Lemma snoc_inj (p q : string) (c d : ascii) : p ++ String c "" = q ++ String d "" -> p = q /\ c = d.
Proof.
  revert q. induction p as [|x p IH]; intros [|y q] H; cbn [String.append] in H.
  - injection H as ->. auto.
  - destruct q; discriminate.
  - destruct p; discriminate.
  - injection H as -> H. apply IH in H as [-> ->]. auto.
Qed.
Lemma whole_split acc c r w : wordy acc -> ~ word_character c -> (Whole w (acc ++ String c r) <-> w = acc /\ acc <> "" \/ Whole w r).
Proof.
  intros A N. split.
  - intros (a & b & E & W1 & W2 & La & Lb). apply split_either in E as [(d & -> & E)|(d & -> & E)].
    + destruct d as [|x d]; cbn [String.append] in E; [destruct w as [|x w]; [now destruct W1|]; injection E as <- _; now inversion W2|].
      injection E as <- ->. right. exists d, b. repeat split; auto. destruct (last_char d) as [->|(p & y & ->)]; [now left|right].
      destruct La as [La|(q & z & La & Nz)]; [destruct acc; discriminate|]. exists p, y. split; auto. change (String c (p ++ String y "")) with ((String c p) ++ String y "") in La.
      rewrite <- app_assoc_s in La. apply snoc_inj in La as [_ ->]. exact Nz.
    + assert (a = "") as ->. { destruct La as [->|(q & z & -> & Nz)]; auto. exfalso. apply Nz. apply wordy_app in A as [A _]. now apply wordy_last in A. }
      cbn [String.append] in *. left. apply split_either in E as [(e & -> & E)|(e & -> & E)].
      * destruct e as [|y e]; [rewrite app_nil_r_s in *|]. { split; auto. } apply wordy_app in A as [_ A]. destruct Lb as [->|(y' & r' & -> & Ny)]; [discriminate|]. injection E as -> _. exfalso. apply Ny. now inversion A.
      * destruct e as [|y e]; [rewrite app_nil_r_s in *; auto|]. cbn [String.append] in E. injection E as <- _. apply (proj1 (wordy_app d (String c e))) in W2 as [_ W2]. now inversion W2.
  - intros [[-> Ne]|(a & b & -> & W1 & W2 & La & Lb)].
    + exists "", (String c r). repeat split; auto. right. exists c, r. auto.
    + exists (acc ++ String c a), b. split; [now rewrite app_assoc_s|]. repeat split; auto. right. destruct La as [->|(p & y & -> & Ny)].
      * exists acc, c. auto.
      * exists (acc ++ String c p), y. split; auto. now rewrite app_assoc_s.
Qed.
Lemma whole_wordy acc w : wordy acc -> (Whole w acc <-> w = acc /\ acc <> "").
Proof.
  intros A. split.
  - intros (a & b & -> & W1 & W2 & La & Lb). apply wordy_app in A as [A1 A2]. apply wordy_app in A2 as [_ A2].
    assert (a = "") as -> by (destruct La as [->|(q & z & -> & Nz)]; auto; exfalso; apply Nz; now apply wordy_last in A1).
    assert (b = "") as -> by (destruct Lb as [->|(z & q & -> & Nz)]; auto; exfalso; apply Nz; now inversion A2).
    cbn [String.append]. rewrite app_nil_r_s. auto.
  - intros [-> N]. exists "", "". cbn [String.append]. rewrite app_nil_r_s. repeat split; auto.
Qed.
Lemma runs_words : forall s acc w, wordy acc -> (In w (runs_aux is_word_char s acc) <-> Whole w (acc ++ s)).
Proof.
  induction s as [|c s IH]; intros acc w A; cbn [runs_aux].
  - rewrite app_nil_r_s, whole_wordy by auto. destruct acc; cbn [In]; [intuition congruence|]. intuition congruence.
  - destruct (is_word_char c) eqn:E.
    + rewrite IH. { now rewrite app_assoc_s. } apply wordy_app. split; auto. constructor; [now apply word_code_spec|constructor].
    + assert (N : ~ word_character c) by (rewrite <- word_code_spec; congruence). rewrite whole_split by auto.
      destruct acc as [|a acc]; [|cbn [In]]; rewrite IH by constructor; intuition congruence.
Qed.

Lemma keyword_spec w k : Keyword w k <-> k = cast_symbol w.
Proof.
  unfold Keyword, cast_symbol. destruct (mem w ["List"; "Tuple"; "Set"; "Dict"]) eqn:E.
  - rewrite mem_spec in E. cbn [In] in E. split.
    + intros [H|[H _]]; [|now destruct H]. cbn [In] in H. destruct H as [H|[H|[H|[H|[]]]]]; injection H as <- <-; reflexivity.
    + intros ->. left. cbn [In]. destruct E as [<-|[<-|[<-|[<-|[]]]]]; [left|right; left|right; right; left|right; right; right; left]; reflexivity.
  - assert (N : ~ In w ["List"; "Tuple"; "Set"; "Dict"]) by (rewrite <- mem_spec; congruence). split; [|intros ->; now right].
    intros [H|[_ H]]; auto. exfalso. apply N. cbn [In] in *. destruct H as [H|[H|[H|[H|[]]]]]; injection H as <- _; auto.
Qed.
Lemma import_symbols_spec s k : In k (import_symbols s) <-> In k (map fst PACKAGE) /\ exists w, Keyword w k /\ Whole w s.
Proof.
  unfold import_symbols. rewrite filter_In, mem_spec, in_map_iff. split.
  - intros [(w & <- & H) P]. split; auto. exists w. split; [now apply keyword_spec|]. now apply (runs_words s "") in H; [|constructor].
  - intros [P (w & K & H)]. split; auto. exists w. split; [now apply keyword_spec in K|]. apply (runs_words s ""); [constructor|]. exact H.
Qed.

Lemma hints_are_hints s hs : Hints s hs -> Forall hint hs.
Proof. induction 1; auto. Qed.
Lemma signature_imports_spec sig k : In k (signature_imports sig) <-> Asked (map fst PACKAGE) sig k.
Proof.
  unfold signature_imports, Asked. rewrite in_app_iff, in_flat_map.
  pose proof (findall_hints_sound _ sig (le_n _)) as Hs. set (hs := findall_hints (String.length sig) sig) in *.
  assert (F : Forall hint hs) by (eapply hints_are_hints; eauto). rewrite Forall_forall in F. split.
  - intros [(h & Hh & H)|H].
    + apply import_symbols_spec in H as [P (w & K & W)]. split; auto. exists w. split; auto. left. exists hs, h, (replace "):" "" h).
      rewrite strip_hint in W by auto. repeat split; auto. now apply replace_spec.
    + destruct (search_return sig) as [r|] eqn:R; [|destruct H]. apply import_symbols_spec in H as [P (w & K & W)]. split; auto. exists w. split; auto. right.
      exists r, (rstrip_by (fun c => Nat.eqb (ord c) 58) r). split; [rewrite <- R; apply search_return_sound|]. split; auto. now apply rstrip_colon.
  - intros [P (w & K & [(hs' & h & t & H1 & H2 & H3 & H4)|(h & t & H1 & H2 & H3)])].
    + left. apply findall_hints_complete with (f := String.length sig) in H1; auto. fold hs in H1. subst hs'. exists h. split; auto. rewrite strip_hint by auto.
      apply replace_spec in H3 as <-. apply import_symbols_spec. eauto.
    + right. apply search_return_complete in H1 as ->. apply rstrip_colon in H2 as <-. apply import_symbols_spec. eauto.
Qed.
