(** C103: docstrings are string literals. *)
From Coq Require Import Ascii String List Bool Arith Lia.
From Verif Require Import SpecYaml Exc Yaml.
From Verif Require Import PyStr PyStrFacts Docstring SpecNames SpecText SpecImports SpecDoc SpecLiteral DocstringFacts PropsBase PropsDocAll SpecComment PropsComment.
Import ListNotations.
Local Open Scope string_scope.
Local Open Scope nat_scope.

(** ** One reading *)
Lemma code_one a b : code a = code b -> a = b.
Proof. intros H. rewrite <- (ascii_nat_embedding a), <- (ascii_nat_embedding b). unfold code in H. now rewrite H. Qed.
Lemma hex_one c n m : hex c n -> hex c m -> n = m.
Proof. unfold hex. intros H H'. lia. Qed.
Lemma simple_one c v w : In (c, v) simple_escapes -> In (c, w) simple_escapes -> v = w.
Proof.
  unfold simple_escapes. cbn [In]. intros H H'.
  repeat (destruct H as [H|H]; [injection H as <- <-; repeat (destruct H' as [H'|H']; [injection H'; intros; lia|]); destruct H'|]). destruct H.
Qed.
Lemma simple_other c w : In (c, w) simple_escapes -> c <> 10 /\ (c < 48 \/ 55 < c) /\ c <> 120.
Proof. unfold simple_escapes. cbn [In]. intros H. repeat (destruct H as [H|H]; [injection H as <- <-; lia|]). destruct H. Qed.
Lemma escape_one s v r : Escape s v r -> forall v' r', Escape s v' r' -> v = v' /\ r = r'.
Proof.
  intros H v' r' H'. inversion H; subst; inversion H'; subst;
    repeat match goal with X : In (code ?c, code ?w) simple_escapes |- _ => pose proof (simple_other _ _ X); revert X end; intros;
    unfold octal, backslash in *;
    try (exfalso; lia);
    try (exfalso; match goal with X : no_octal (String ?c ?t) |- _ => apply (X c t eq_refl); unfold octal; lia end);
    try (exfalso; match goal with X : forall w, ~ In _ simple_escapes, Y : In _ simple_escapes |- _ => eapply X; exact Y end);
    try (exfalso; match goal with X : ~ In _ [120; _; _; _] |- _ => apply X; cbn; lia end);
    split; auto; try (f_equal; apply code_one; congruence).
  - f_equal. apply code_one. eapply simple_one; eauto.
  - repeat match goal with X : hex ?c ?n, Y : hex ?c ?m |- _ => first [constr_eq n m; clear Y|rewrite (hex_one _ _ _ X Y) in *; clear X] end. f_equal. apply code_one. lia.
Qed.
Theorem C103_one_reading : forall s v r v' r', Literal s v r -> Literal s v' r' -> v = v' /\ r = r'.
Proof.
  assert (G : forall s v r, Long s v r -> forall v' r', Long s v' r' -> v = v' /\ r = r').
  { induction 1 as [r|c s v r B N L IH|b s w s' v r B E L IH]; intros v' r' H'.
    - inversion H' as [r0 E0|c s v r0 B N L|b s w s' v r0 B E L]; subst; auto; [exfalso; now apply (N r)|exfalso; cbv in B; discriminate B].
    - inversion H' as [r0 E0|c' s0 v0 r0 B0 N0 L0|b s0 w s' v0 r0 B0 E0 L0]; subst; [exfalso; now apply (N r')| |contradiction]. destruct (IH _ _ L0) as [-> ->]. auto.
    - inversion H' as [r0 E0|c' s0 v0 r0 B0 N0 L0|b' s0 w' s'' v0 r0 B0 E0 L0]; subst; [exfalso; cbv in B; discriminate B|contradiction|]. destruct (escape_one _ _ _ E _ _ E0) as [<- <-]. destruct (IH _ _ L0) as [-> ->]. auto. }
  intros s v r v' r' (t & -> & L) (t' & E & L'). injection E as <-. eapply G; eauto.
Qed.
Print Assumptions C103_one_reading.

(** ** Texts without triple quotes and backslashes *)
Definition tame (s : string) : Prop := without_quotes3 s /\ without_backslash s.
Definition calm (c : ascii) : Prop := code c <> 34 /\ ~ backslash c.
Lemma chars_cat a b : chars (a ++ b) = (chars a ++ chars b)%list.
Proof. induction a as [|c a IH]; cbn; [reflexivity|now rewrite IH]. Qed.
Lemma tame_parts a b : tame (a ++ b) -> tame a /\ tame b.
Proof.
  intros [Q B]. unfold without_backslash in B. rewrite chars_cat in B. apply Forall_app in B as [B1 B2]. split; (split; [|assumption]); intros x y E.
  - apply (Q x (y ++ b)). rewrite E. now rewrite !app_assoc_s.
  - apply (Q (a ++ x) y). rewrite E. now rewrite !app_assoc_s.
Qed.
Lemma tame_empty : tame "".
Proof. split; [intros [|]; discriminate|constructor]. Qed.
Lemma tame_mid a c b : tame a -> tame b -> calm c -> tame (a ++ String c b).
Proof.
  intros [Qa Ba] [Qb Bb] [C1 C2]. split.
  - clear Ba Bb. induction a as [|x a IH]; intros u v E.
    + cbn [append] in E. destruct u as [|z u]; cbn [append quotes3] in E; injection E as E1 E2; [subst c; now apply C1|now apply (Qb u v)].
    + destruct u as [|z u].
      * cbn [append] in E. destruct a as [|y [|w a]]; cbn [append quotes3] in E.
        -- injection E as _ E _. subst c. now apply C1.
        -- injection E as _ _ E _. subst c. now apply C1.
        -- injection E as -> -> -> _. apply (Qa "" a). reflexivity.
      * cbn [append] in E. injection E as _ E. revert u v E. apply IH. intros u v E. apply (Qa (String x u) v). cbn [append]. now rewrite E.
  - unfold without_backslash. rewrite chars_cat. apply Forall_app. split; [exact Ba|]. constructor; auto.
Qed.
Lemma white_calm c : white c -> calm c.
Proof. unfold calm, backslash. intros H. unfold white in H. cbn [In] in H. lia. Qed.
Lemma tame_blank e b : blank e -> tame b -> tame (e ++ b).
Proof.
  unfold blank. induction e as [|c e IH]; intros H Hb; [exact Hb|]. cbn [chars] in H. inversion H; subst. change (String c e ++ b) with ("" ++ String c (e ++ b)). apply tame_mid; [exact tame_empty|auto|now apply white_calm].
Qed.
Lemma tame_words s ws : Words s ws -> tame s -> Forall tame ws.
Proof.
  induction 1 as [s B|b w e Hb Hw He|b w c s ws Hb Hw Hc H IH]; intros T; constructor.
  - apply tame_parts in T as [_ T]. now apply tame_parts in T.
  - constructor.
  - apply tame_parts in T as [_ T]. now apply tame_parts in T.
  - apply IH. apply tame_parts in T as [_ T]. apply tame_parts in T as [_ T]. change (String c s) with (String c "" ++ s) in T. now apply tame_parts in T.
Qed.
Lemma tame_joined c l s : calm c -> Joined (String c "") l s -> Forall tame l -> tame s.
Proof.
  intros C J. induction J as [|x|x y l s J IH]; intros F; inversion F; subst; [exact tame_empty|assumption|]. change (String c "" ++ s) with (String c s). apply tame_mid; auto.
Qed.
Lemma tame_split sep l s : Joined sep l s -> tame s -> Forall tame l.
Proof.
  intros J. induction J as [|x|x y l s J IH]; intros T; [constructor|constructor; [exact T|constructor]|]. apply tame_parts in T as [A B]. constructor; auto. apply IH. now apply tame_parts in B.
Qed.
Lemma space_calm : calm " ".
Proof. split; [discriminate|intros H; discriminate H]. Qed.
Lemma feed_calm : calm (ascii_of_nat 10).
Proof. split; [discriminate|intros H; discriminate H]. Qed.
Lemma tame_filled max ws ls : Filled max ws ls -> Forall tame ws -> Forall tame ls.
Proof.
  induction 1 as [|w k r line ls J _ _ H IH]; intros F; [constructor|]. inversion F as [|? ? F1 F2]; subst. apply Forall_app in F2 as [F2 F3]. constructor; [|auto]. apply (tame_joined " " (w :: k)); auto using space_calm.
Qed.
Lemma tame_wrapped max line ls : Wrapped max line ls -> tame line -> Forall tame ls.
Proof. intros [|l ws ls' _ W F] T; [constructor; [exact T|constructor]|]. eapply tame_filled; eauto using tame_words. Qed.
Lemma tame_dotted s d : Dotted s d -> tame s -> tame d.
Proof. intros [t e -> _ _ _|t e -> _ _ _] T; apply tame_parts in T as [T _]; [exact T|]. apply tame_mid; [exact T|exact tame_empty|]. split; [discriminate|intros H; discriminate H]. Qed.
Lemma dotted_end s d : Dotted s d -> exists u, d = u ++ ".".
Proof. intros [t e _ _ _ H|t e _ _ _ _]; eauto. Qed.

(** Such a text between quotes is a literal if it does not end with a quote. *)
Lemma tame_long s u c : tame s -> s = u ++ String c "" -> code c <> 34 -> Long (s ++ quotes3) s "".
Proof.
  revert u. induction s as [|x s IH]; intros u [Q B] E C; [destruct u; discriminate|]. inversion B as [|? ? B1 B2]; subst. cbn [append]. apply long_char; auto.
  - intros t F. destruct s as [|y [|z s]]; cbn [append quotes3] in F.
    + destruct u as [|? [|? u]]; cbn [append] in E; [|discriminate E|discriminate E]. injection E as ->. injection F as F _. subst c. now apply C.
    + destruct u as [|? [|? [|? u]]]; cbn [append] in E; [discriminate E| |discriminate E|discriminate E]. injection E as _ ->. injection F as _ F _. subst c. now apply C.
    + injection F as -> -> -> _. apply (Q "" s). reflexivity.
  - destruct u as [|y u]; cbn [append] in E; injection E as -> E.
    + subst s. apply (long_end "").
    + apply (IH u); auto. split; [|exact B2]. intros a b F. apply (Q (String y a) b). cbn [append]. now rewrite F.
Qed.

Lemma joined_head sep x l s : l <> [] -> Joined sep (x :: l) s -> exists r, Joined sep l r /\ s = x ++ sep ++ r.
Proof. intros N J. destruct l as [|y l]; [congruence|]. inversion J; subst. eauto. Qed.
Lemma joined_last sep l : forall x s, Joined sep (l ++ [x])%list s -> l = [] /\ s = x \/ exists m, Joined sep l m /\ s = m ++ sep ++ x.
Proof.
  induction l as [|a l IH]; intros x s J; [inversion J; subst; auto|]. right. destruct l as [|b l].
  - cbn [app] in J. inversion J as [| |? ? ? r J' E1 E2]; subst. inversion J'; subst. exists a. split; [constructor|reflexivity].
  - cbn [app] in J. inversion J as [| |? ? ? r J' E1 E2]; subst. destruct (IH x r J') as [[Z _]|(m & Hm & ->)]; [discriminate Z|]. exists (a ++ sep ++ m). split; [now constructor|]. now rewrite !app_assoc_s.
Qed.
Lemma blank_last e : forall c0, blank e -> white c0 -> exists u c, String c0 e = u ++ String c "" /\ white c.
Proof.
  induction e as [|x e IH]; intros c0 B W; [exists "", c0; auto|]. inversion B; subst. destruct (IH x) as (u & c & E & Wc); auto. exists (String c0 u), c. split; [cbn [append]; now rewrite E|exact Wc].
Qed.

Lemma docstring_body max ind s body : blank ind -> tame s -> format_docstring max ind s = ind ++ quotes3 ++ body ++ quotes3 -> tame body /\ exists u c, body = u ++ String c "" /\ code c <> 34.
Proof.
  intros Bi Ts E.
  pose proof (C33_all_texts max ind s) as D. inversion D as [d parts wrapped out Dd Np J F1 W O1 O2 Eo]. clear D. subst out.
  assert (Td : tame d) by (eapply tame_dotted; eauto).
  assert (Dec : one_line d \/ ~ one_line d).
  { unfold one_line. destruct (existsb (fun c => Nat.eqb (code c) 10) (chars d)) eqn:Z.
    - right. intros H. apply existsb_exists in Z as (c & Hc & Z). apply Nat.eqb_eq in Z. now apply (H c Hc).
    - left. intros c Hc Hz. assert (existsb (fun c => Nat.eqb (code c) 10) (chars d) = true) by (apply existsb_exists; exists c; split; auto; now apply Nat.eqb_eq). congruence. }
  assert (DO : in_one_line max d (concat wrapped) \/ ~ in_one_line max d (concat wrapped)).
  { unfold in_one_line. destruct Dec as [Dec|Dec]; [|right; intros [H _]; auto]. destruct (le_lt_dec (String.length d + 6) max); [left; auto|]. destruct (Nat.eq_dec (List.length (concat wrapped)) 1); [left; auto|right; intros [_ [H|H]]; lia]. }
  destruct DO as [DO|DO].
  - rewrite (O1 DO) in E. apply app_inj_l in E. change quotes3 with tq in E. apply app_inj_l, app_inj_r in E. subst body. destruct (dotted_end s d Dd) as (u & Eu). split; [exact Td|]. exists u, "."%char. split; [exact Eu|discriminate].
  - specialize (O2 DO).
    assert (Tl : Forall tame (concat wrapped)).
    { apply (tame_split feed parts d J) in Td. clear -W Td. induction W as [|p w ps wr Hp H IH]; [constructor|]. inversion Td; subst. cbn [concat]. apply Forall_app. split; [eapply tame_wrapped; eauto|auto]. }
    assert (Bd : body = feed ++ ind \/ exists m, Joined feed (map (fun x => ind ++ x) (concat wrapped)) m /\ body = feed ++ m ++ feed ++ ind).
    { rewrite E in O2.
      apply joined_head in O2 as (r & Hr & Er); [|destruct (map _ _); discriminate]. change tq with quotes3 in Er. rewrite !app_assoc_s in Er. apply app_inj_l, app_inj_l in Er. apply joined_last in Hr as [[_ ->]|(m & Hm & ->)].
      - left. rewrite <- app_assoc_s in Er. now apply app_inj_r in Er.
      - right. exists m. split; auto. rewrite <- !app_assoc_s in Er. apply app_inj_r in Er. rewrite Er. now rewrite !app_assoc_s. }
    destruct (blank_last ind (ascii_of_nat 10) Bi ltac:(cbn; tauto)) as (u & c & Eu & Wc). pose proof (proj1 (white_calm c Wc)) as Cc.
    assert (Ti : tame ind) by (rewrite <- (app_nil_r_s ind); apply tame_blank; [exact Bi|exact tame_empty]).
    destruct Bd as [->|(m & Hm & ->)].
    + split; [|exists u, c; auto]. change (feed ++ ind) with ("" ++ String (ascii_of_nat 10) ind). apply tame_mid; auto using tame_empty, feed_calm.
    + split; [|exists (feed ++ m ++ u), c; split; [|exact Cc]].
      * rewrite <- app_assoc_s. change (feed ++ ind) with (String (ascii_of_nat 10) ind). apply tame_mid; auto using feed_calm. change (feed ++ m) with ("" ++ String (ascii_of_nat 10) m). apply tame_mid; auto using tame_empty, feed_calm.
        apply (tame_joined (ascii_of_nat 10) _ m feed_calm Hm). clear -Tl Bi. induction Tl; cbn [map]; constructor; auto using tame_blank.
      * rewrite !app_assoc_s. do 2 f_equal. exact Eu.
Qed.
(** Every docstring for such a text is one literal with nothing after it; its value consists of the words of the text and a period. *)
Theorem C103_literal_partial : forall max ind s, blank ind -> without_quotes3 s -> without_backslash s ->
  exists body t e ws, format_docstring max ind s = ind ++ quotes3 ++ body ++ quotes3 /\ Literal (quotes3 ++ body ++ quotes3) body "" /\
    s = t ++ e /\ Forall (fun c => code c = 10) (chars e) /\ Words body ws /\ (Words t ws /\ (exists u, t = u ++ ".") \/ Words (t ++ ".") ws /\ ~ exists u, t = u ++ ".").
Proof.
  intros max ind s Bi Q B. destruct (C32_docstring_words max ind s Bi) as (body & t & e & ws & E & X). exists body, t, e, ws. split; [exact E|]. split; [|exact X]. exists (body ++ quotes3). split; [reflexivity|].
  destruct (docstring_body max ind s body Bi (conj Q B) E) as (T & u & c & Eu & C). now apply (tame_long body u c).
Qed.
Print Assumptions C103_literal_partial.

(** The comments of a YAML file lose their triple quotes before (C90); so a comment without backslashes gives a literal. *)
Theorem C103_comments : forall texts max ind s, blank ind -> Docstring_text texts s -> without_backslash s ->
  exists body, format_docstring max ind s = ind ++ quotes3 ++ body ++ quotes3 /\ Literal (quotes3 ++ body ++ quotes3) body "".
Proof.
  intros texts max ind s Bi D B. destruct (C90_shape texts s D) as [Q _]. destruct (C103_literal_partial max ind s Bi Q B) as (body & t & e & ws & E & L & _). eauto.
Qed.
Print Assumptions C103_comments.

(** Three quotes in the text end the literal, a backslash changes its value, and a wrong escape is no literal at all. *)
Ltac long_step := apply long_char; [intros H; discriminate H|intros t H; discriminate H|].
Definition quote_sign : string := String (ascii_of_nat 34) "".
Theorem C103_quotes_refuted : exists s, without_backslash s /\ forall v, ~ Literal (format_docstring 90 "" s) v "".
Proof.
  exists ("Use " ++ quotes3 ++ " here"). split; [apply Forall_forall; intros c Hc H; cbn in Hc; repeat (destruct Hc as [<-|Hc]; [discriminate H|]); destruct Hc|].
  intros v L. assert (L' : Literal (format_docstring 90 "" ("Use " ++ quotes3 ++ " here")) "Use " (" here." ++ quotes3)).
  { exists ("Use " ++ quotes3 ++ " here." ++ quotes3). split; [vm_compute; reflexivity|]. cbn [append]. do 4 long_step. apply (long_end (" here." ++ quotes3)). }
  destruct (C103_one_reading _ _ _ _ _ L L') as [_ X]. discriminate X.
Qed.
Print Assumptions C103_quotes_refuted.
Theorem C103_value_refuted : exists s v, without_quotes3 s /\ format_docstring 90 "" s = quotes3 ++ s ++ "." ++ quotes3 /\ Literal (quotes3 ++ s ++ "." ++ quotes3) v "" /\ v <> s ++ ".".
Proof.
  pose (b := String (ascii_of_nat 92) "").
  exists ("In C:" ++ b ++ "new"), ("In C:" ++ feed ++ "ew."). split; [|split; [vm_compute; reflexivity|split; [|discriminate]]].
  - intros u v E. do 9 (destruct u as [|? u]; [discriminate E|]; cbn in E; injection E as _ E). destruct u; discriminate E.
  - exists ("In C:" ++ b ++ "new." ++ quotes3). split; [reflexivity|]. cbn [append b]. do 5 long_step.
    apply (long_escape (ascii_of_nat 92) _ feed ("ew." ++ quotes3) "ew." ""); [reflexivity|apply (esc_simple "n" (ascii_of_nat 10)); cbn; tauto|]. cbn [append]. do 3 long_step. apply (long_end "").
Qed.
Print Assumptions C103_value_refuted.
Theorem C103_escape_refuted : exists s, without_quotes3 s /\ forall v r, ~ Literal (format_docstring 90 "" s) v r.
Proof.
  exists (String (ascii_of_nat 92) "x"). split.
  - intros u v E. do 2 (destruct u as [|? u]; [discriminate E|]; cbn in E; injection E as _ E). destruct u; discriminate E.
  - intros v r (t & E & L). replace (format_docstring 90 "" (String (ascii_of_nat 92) "x")) with (quotes3 ++ String (ascii_of_nat 92) ("x." ++ quotes3)) in E by (vm_compute; reflexivity). apply app_inj_l in E. subst t.
    inversion L as [r0 E0|c s0 v0 r0 B0 N0 L0|b s0 w s' v0 r0 B0 E0 L0]; subst; [apply B0; reflexivity|].
    assert (C : code "x" = 120) by reflexivity.
    inversion E0 as [c r1 X|c w0 r1 X|a w0 r1 X|a b w0 r1 X|a b c w0 r1 X|x a b w0 r1 n m X1 X2|b c r1 X1 X2 X3 X4 X5]; subst.
    + discriminate X.
    + apply simple_other in X. lia.
    + unfold octal in X. lia.
    + unfold octal in X. lia.
    + unfold octal in X. lia.
    + unfold hex in X2. change (code ".") with 46 in X2. lia.
    + apply X5. left. reflexivity.
Qed.
Print Assumptions C103_escape_refuted.
(** A comment beside a key keeps its triple quotes. *)
Theorem C103_side_refuted : exists line s, comment_at [line] 0 line Side = Val s /\ s <> "" /\ forall v, ~ Literal (format_docstring 90 "" s) v "".
Proof.
  exists ("port: 1 # Use " ++ quotes3 ++ " here"), ("Use " ++ quotes3 ++ " here."). split; [vm_compute; reflexivity|]. split; [discriminate|]. intros v.
  intros L. assert (L' : Literal (format_docstring 90 "" ("Use " ++ quotes3 ++ " here.")) "Use " (" here." ++ quotes3)).
    { exists ("Use " ++ quotes3 ++ " here." ++ quotes3). split; [vm_compute; reflexivity|]. cbn [append]. do 4 long_step. apply (long_end (" here." ++ quotes3)). }
    destruct (C103_one_reading _ _ _ _ _ L L') as [_ X]. discriminate X.
Qed.
Print Assumptions C103_side_refuted.

Example C103_example : blank TAB /\ without_quotes3 ("Say " ++ quote_sign ++ "hi" ++ quote_sign ++ " twice") /\ without_backslash ("Say " ++ quote_sign ++ "hi" ++ quote_sign ++ " twice") /\
  format_docstring 12 TAB ("Say " ++ quote_sign ++ "hi" ++ quote_sign ++ " twice") = TAB ++ quotes3 ++ (feed ++ TAB ++ "Say " ++ quote_sign ++ "hi" ++ quote_sign ++ feed ++ TAB ++ "twice." ++ feed ++ TAB) ++ quotes3.
Proof.
  split; [repeat (constructor; [cbn; tauto|]); constructor|]. split; [|split; [|vm_compute; reflexivity]].
  - intros u v E. do 14 (destruct u as [|? u]; [discriminate E|]; cbn in E; injection E as _ E). destruct u; discriminate E.
  - apply Forall_forall. intros c Hc H. cbn in Hc. repeat (destruct Hc as [<-|Hc]; [discriminate H|]). destruct Hc.
Qed.
