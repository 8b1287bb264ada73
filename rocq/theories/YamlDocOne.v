(** A document is read in one way. *)
From Coq Require Import Ascii String List Bool Arith Lia.
From Verif Require Import PyStr PyStrFacts SpecNames SpecText SpecYaml SpecImports NamesFacts DocstringFacts YamlFacts YamlLines Dispatch Values SpecYamlDoc YamlDocTokens.
Import ListNotations.
Local Open Scope string_scope.
Local Open Scope nat_scope.

(** ** One list of tokens *)
Lemma pad_split : forall k n c r c' r', pad k ++ String c r = pad n ++ String c' r' -> code c <> 32 -> code c' <> 32 -> k = n /\ c = c' /\ r = r'.
Proof. intros k n c r c' r' E N N'. pose proof (pad_first _ _ _ _ _ _ E N N'). subst. apply app_inj_l in E. now injection E as -> ->. Qed.
Lemma until_colon : forall a b x z, ~ In (char 58) (chars a) -> ~ In (char 58) (chars b) -> a ++ ":" ++ x = b ++ ":" ++ z -> a = b /\ x = z.
Proof.
  induction a as [|c a IH]; intros [|d b] x z Na Nb E; cbn [append] in E.
  - injection E as ->. auto.
  - injection E as <- _. exfalso. apply Nb. now left.
  - injection E as -> _. exfalso. apply Na. now left.
  - injection E as -> E. cbn [chars In] in Na, Nb. destruct (IH b x z) as [-> ->]; tauto.
Qed.
Lemma key_colon key : key_name key -> ~ In (char 58) (chars key).
Proof. intros [_ [F _]] H. rewrite Forall_forall in F. destruct (F _ H) as (_ & _ & N). now apply N. Qed.
Lemma key_at_one n dash key rest n' dash' key' rest' : key_name key -> key_name key' -> key_at n dash key rest = key_at n' dash' key' rest' -> n = n' /\ dash = dash' /\ key = key' /\ rest = rest'.
Proof.
  intros K K' E. destruct (key_starts key K) as (c & r & Ek & N & H). destruct (key_starts key' K') as (c' & r' & Ek' & N' & H').
  assert (D : code "-" = 45) by reflexivity. unfold key_at in E.
  assert (L : forall d, ascii_letter d \/ code d = 95 -> code d <> 45) by (unfold ascii_letter; lia).
  destruct dash, dash'; cbn [bullet append] in E.
  - apply pad_split in E as (-> & _ & E); [|cbv; discriminate..]. injection E as E. apply until_colon in E as [-> ->]; auto using key_colon.
  - rewrite Ek' in E. cbn [append] in E. apply pad_split in E as (_ & <- & _); [|cbv; discriminate|auto]. now elim (L _ H').
  - rewrite Ek in E. cbn [append] in E. apply pad_split in E as (_ & -> & _); [|auto|cbv; discriminate]. now elim (L _ H).
  - rewrite Ek, Ek' in E. cbn [append] in E. apply pad_split in E as (-> & -> & E); auto. split; [auto|]. split; [auto|].
    assert (E2 : key ++ ":" ++ rest = key' ++ ":" ++ rest') by (rewrite Ek, Ek'; cbn [append]; now rewrite E). apply until_colon in E2 as [-> ->]; auto using key_colon.
Qed.
Lemma idle_first l n c r : idle l -> l = pad n ++ String c r -> code c <> 32 -> code c = 35.
Proof.
  intros (k & x & -> & [->|(t & ->)]) E N.
  - exfalso. rewrite app_nil_r_s in E. revert n E. induction k as [|k IH]; intros [|n] E; try discriminate; cbn [pad append] in E; injection E; intros; [subst; now apply N|eauto].
  - cbn [append] in E. apply pad_split in E as (_ & <- & _); auto. cbv; discriminate.
Qed.
Lemma idle_no_key n dash key rest : key_name key -> ~ idle (key_at n dash key rest).
Proof.
  intros K I. destruct (key_starts key K) as (c & r & -> & N & H). unfold key_at in I. destruct dash; cbn [bullet append] in I.
  - pose proof (idle_first _ _ _ _ I eq_refl ltac:(cbv; discriminate)) as X. discriminate X.
  - pose proof (idle_first _ _ _ _ I eq_refl N) as X. unfold ascii_letter in H. lia.
Qed.
Lemma idle_no_item n rest : ~ idle (pad n ++ "- " ++ rest).
Proof. intros I. pose proof (idle_first _ n "-" (" " ++ rest) I eq_refl ltac:(cbv; discriminate)) as X. discriminate X. Qed.
Lemma item_no_key n rest n' dash key rest' : single rest -> key_name key -> pad n ++ "- " ++ rest <> key_at n' dash key rest'.
Proof.
  intros (_ & _ & N) K E. destruct (key_starts key K) as (c & r & Ek & Nc & H). unfold key_at in E. destruct dash; cbn [bullet append] in E.
  - apply pad_split in E as (_ & _ & E); [|cbv; discriminate..]. injection E as ->. apply N. rewrite chars_app, in_app_iff. right. now left.
  - rewrite Ek in E. cbn [append] in E. apply pad_split in E as (_ & <- & _); [|cbv; discriminate|auto]. unfold ascii_letter in H. cbv in H. lia.
Qed.
Lemma nested_no_key n rest n' dash key rest' : key_name key -> pad n ++ "- - " ++ rest <> key_at n' dash key rest'.
Proof.
  intros K E. destruct (key_starts key K) as (c & r & Ek & Nc & H). unfold key_at in E. rewrite Ek in E. destruct dash; cbn [bullet append] in E.
  - apply pad_split in E as (_ & _ & E); [|cbv; discriminate..]. injection E as E _. subst c. destruct H as [H|H]; [unfold ascii_letter in H; cbv in H; lia|discriminate H].
  - apply pad_split in E as (_ & <- & _); [|cbv; discriminate|auto]. unfold ascii_letter in H. cbv in H. lia.
Qed.
Lemma nested_no_item n rest n' rest' : single rest' -> pad n ++ "- - " ++ rest <> pad n' ++ "- " ++ rest'.
Proof.
  intros [(c & r & -> & _ & _ & N) _] E. cbn [append] in E. apply pad_split in E as (_ & _ & E); [|cbv; discriminate..]. injection E as <- <-. apply N. split; [reflexivity|]. right. exists rest. reflexivity.
Qed.
Lemma nested_one n rest n' rest' : pad n ++ "- - " ++ rest = pad n' ++ "- - " ++ rest' -> n = n' /\ rest = rest'.
Proof. intros E. cbn [append] in E. apply pad_split in E as (-> & _ & E); [|cbv; discriminate..]. injection E as ->. auto. Qed.
Lemma item_one n rest n' rest' : pad n ++ "- " ++ rest = pad n' ++ "- " ++ rest' -> n = n' /\ rest = rest'.
Proof. intros E. cbn [append] in E. apply pad_split in E as (-> & _ & E); [|cbv; discriminate..]. injection E as ->. auto. Qed.

(** Texts of several lines. *)
Lemma pad_pad m k s : k < m -> pad k <> pad m ++ s.
Proof. revert k. induction m as [|m IH]; intros [|k] L E; try lia; try discriminate. cbn [pad append] in E. injection E as E. eapply IH; [|exact E]. lia. Qed.
Lemma content_one m l c c' : content m l c -> content m l c' -> c = c'.
Proof.
  intros [->|[-> (k & L & ->)]] [E|[-> (k' & L' & E)]].
  - now apply app_inj_l in E.
  - symmetry in E. now apply pad_pad in E.
  - now apply pad_pad in E.
  - reflexivity.
Qed.
Lemma contents_one m a b b' : Forall2 (content m) a b -> Forall2 (content m) a b' -> b = b'.
Proof. intros H. revert b'. induction H as [|l c a b H F IH]; intros b' F'; inversion F'; subst; auto. f_equal; eauto using content_one. Qed.
Lemma literal_first E f ch m body l0 text : block_text E f ch m body l0 text -> exists c r body', body = (pad m ++ String c r) :: body' /\ code c <> 32.
Proof.
  intros (first & more & empty & n & F & (c & r & -> & N) & _). inversion F as [|l x body' y H F']; subst. destruct H as [->|[H _]]; [|discriminate]. exists c, r, body'. auto.
Qed.
Lemma literal_indent E0 f ch f' ch' m m' body text body' text' ls ls' l0 l0' : block_text E0 f ch m body l0 text -> block_text E0 f' ch' m' body' l0' text' -> (body ++ ls = body' ++ ls')%list -> m = m'.
Proof.
  intros L L' E. destruct (literal_first _ _ _ _ _ _ _ L) as (c & r & b & -> & N). destruct (literal_first _ _ _ _ _ _ _ L') as (c' & r' & b' & -> & N'). injection E as E _. now apply pad_first in E.
Qed.
Lemma prefix_of {A} : forall a b e e' : list A, (a ++ e = b ++ e')%list -> List.length a <= List.length b -> exists x, b = (a ++ x)%list.
Proof.
  induction a as [|z a IH]; intros b e e' E L; [exists b; reflexivity|]. destruct b as [|w b]; [cbn in L; lia|]. injection E as -> E. cbn in L. destruct (IH b e e' E) as (x & ->); [lia|]. exists x. reflexivity.
Qed.
Lemma trailing_one (a b e e' : list string) : (a ++ e = b ++ e')%list -> Forall (eq "") e -> Forall (eq "") e' -> last a "" <> "" -> last b "" <> "" -> a = b.
Proof.
  assert (G : forall (a b e e' : list string), (a ++ e = b ++ e')%list -> Forall (eq "") e -> last b "" <> "" -> List.length a <= List.length b -> a = b).
  { clear. intros a b e e' E F N L. pose proof (prefix_of _ _ _ _ E L) as X.
    destruct X as (x & ->). rewrite <- app_assoc in E. apply app_inv_head in E. subst e. apply Forall_app in F as [F _].
    destruct x as [|z x] using rev_ind; [now rewrite app_nil_r|]. exfalso. apply N. rewrite app_assoc, last_last. apply Forall_app in F as [_ F]. inversion F. auto. }
  intros E F F' N N'. destruct (Nat.le_ge_cases (List.length a) (List.length b)); [eauto|symmetry; eauto].
Qed.
Lemma breaks_one E e l n n' : breaks E e l n -> breaks E e l n' -> n = n'.
Proof. intros [[A ->]|(A & B & ->)] [[A' ->]|(A' & B' & ->)]; auto; tauto. Qed.
Lemma literal_one E0 f ch m body l0 text text' : block_text E0 f ch m body l0 text -> block_text E0 f ch m body l0 text' -> text = text'.
Proof.
  intros (f1 & more & e & n & F & _ & E & N & B & ->) (f1' & more' & e' & n' & F' & _ & E' & N' & B' & ->). pose proof (contents_one _ _ _ _ F F') as X.
  assert (Y : f1 :: more = f1' :: more') by (eapply trailing_one; eauto). rewrite Y in X. apply app_inv_head in X. injection Y as -> ->. subst e'. now rewrite (breaks_one _ _ _ _ _ B B').
Qed.
Lemma bare_first r c t : bare r -> r = String c t -> code c = 32.
Proof. intros (n & x & -> & [->|(L & y & ->)]) E; destruct n as [|n]; try discriminate; try lia; cbn [pad append] in E; now injection E as <- _. Qed.
Lemma header_one f ch f' ch' rest : text_header f ch rest -> text_header f' ch' rest -> f = f' /\ ch = ch'.
Proof.
  intros (n & r & E & B) (n' & r' & E' & B'). rewrite E in E'. clear E.
  assert (X : f = f' /\ sign ch ++ r = sign ch' ++ r').
  { destruct f, f'; cbn [append] in E'; apply pad_split in E' as (_ & X & Y); try (cbv; discriminate); try discriminate; auto. }
  destruct X as [-> X]. split; [reflexivity|]. pose proof (bare_first r) as Br. pose proof (bare_first r') as Br'.
  destruct ch, ch'; try reflexivity; cbn [sign append] in X; exfalso; try discriminate X;
    first [specialize (Br _ _ B X); discriminate Br|symmetry in X; specialize (Br' _ _ B' X); discriminate Br'].
Qed.
Lemma text_header_header f ch rest : text_header f ch rest -> header rest.
Proof. intros (n & r & -> & _). exists (S n), (sign ch ++ r). destruct f; auto. Qed.
Lemma content_indented m x c k d r : content m x c -> x = pad k ++ String d r -> k < m -> code d <> 32 -> False.
Proof.
  intros [H|[_ (j & Lj & H)]] E L N; rewrite E in H; clear E x.
  - revert m L H. induction k as [|k IH]; intros [|m] L H; try lia; cbn [pad append] in H; injection H; intros; [subst; now apply N|eapply IH; [|eassumption]; lia].
  - symmetry in H. now apply pad_no in H.
Qed.
Lemma literal_content E f ch m body l0 text x : block_text E f ch m body l0 text -> In x body -> exists c, content m x c.
Proof.
  intros (f1 & more & e & n & F & _) H. clear - F H. revert F. generalize ((f1 :: more) ++ e)%list. induction body as [|l body IH]; intros b F; [contradiction|]. inversion F; subst. destruct H as [<-|H]; eauto.
Qed.
Lemma literal_extent E0 f ch f' ch' m body body' text text' ls ls' l0 l0' : block_text E0 f ch m body l0 text -> block_text E0 f' ch' m body' l0' text' -> dedented m ls -> dedented m ls' -> (body ++ ls = body' ++ ls')%list -> body = body' /\ ls = ls'.
Proof.
  assert (G : forall f' ch' body body' text' ls ls' l0', block_text E0 f' ch' m body' l0' text' -> dedented m ls -> (body ++ ls = body' ++ ls')%list -> List.length body <= List.length body' -> body = body' /\ ls = ls').
  { clear. intros f' ch' body body' text' ls ls' l0' L D E Le. pose proof (prefix_of _ _ _ _ E Le) as X.
    destruct X as (x & ->). rewrite <- app_assoc in E. apply app_inv_head in E. subst ls. destruct x as [|z x]; [rewrite app_nil_r; auto|]. exfalso.
    destruct D as [D|(k & c & r & ls2 & D & Lk & N)]; [discriminate|]. injection D as -> _. destruct (literal_content _ _ _ m _ _ text' (pad k ++ String c r) L) as (d & Hd); [rewrite in_app_iff; right; now left|]. eapply content_indented; eauto. }
  intros L L' D D' E. destruct (Nat.le_ge_cases (List.length body) (List.length body')) as [Le|Le]; [eauto|]. destruct (G f ch body' body text ls' ls l0) as [-> ->]; auto.
Qed.

Ltac exfalso_idle :=
  try match goal with
  | I : idle (key_at _ _ _ _) |- _ => exfalso; revert I; apply idle_no_key; assumption
  | I : idle (_ ++ _) |- _ => exfalso; revert I; apply idle_no_item
  | E : key_at _ _ _ _ = _ ++ _ |- _ => exfalso; symmetry in E; revert E; first [apply nested_no_key; assumption|apply item_no_key; assumption]
  | E : _ ++ _ = key_at _ _ _ _ |- _ => exfalso; revert E; first [apply nested_no_key; assumption|apply item_no_key; assumption]
  | E : _ ++ String "-" (String " " (String "-" (String " " _))) = _ ++ String "-" (String " " _), Sg : single _ |- _ => exfalso; revert E; apply nested_no_item; exact Sg
  | E : _ ++ String "-" (String " " _) = _ ++ String "-" (String " " (String "-" (String " " _))), Sg : single _ |- _ => exfalso; symmetry in E; revert E; apply nested_no_item; exact Sg
  end.
Lemma tokens_one E0 P Q : forall i ls ts, Tokens E0 P i ls ts -> forall ts', Tokens E0 Q i ls ts' -> ts = ts'.
Proof.
  induction 1 as [i|i l ls ts I H IH|i n dash key rest ls ts K Sp NH H IH|i n dash key rest folded ch m body text ls ts K Hd L Qb C D H IH|i n rest ls ts Hp H IH|i n rest ls ts Sg H IH]; intros ts' H'.
  - now inversion H'.
  - inversion H'; subst; exfalso_idle; auto.
  - inversion H'; subst; exfalso_idle.
    + match goal with E : key_at _ _ _ _ = key_at _ _ _ _ |- _ => apply key_at_one in E as (-> & -> & -> & ->); auto end. f_equal. f_equal. now apply IH.
    + match goal with E : key_at _ _ _ _ = key_at _ _ _ _ |- _ => apply key_at_one in E as (-> & -> & -> & ->); auto end. match goal with X : text_header _ _ _ |- _ => apply text_header_header in X end. contradiction.
  - inversion H'; subst; exfalso_idle.
    + match goal with E : key_at _ _ _ _ = key_at _ _ _ _ |- _ => apply key_at_one in E as (-> & -> & -> & ->); auto end. apply text_header_header in Hd. contradiction.
    + match goal with E : key_at _ _ _ _ = key_at _ _ _ _, E2 : (_ ++ _ = _ ++ _)%list, L' : block_text _ _ _ _ _ _ _, D' : dedented _ _, Hd' : text_header _ _ _ |- _ => apply key_at_one in E as (-> & -> & -> & ->); auto; destruct (header_one _ _ _ _ _ Hd' Hd) as [-> ->];
        pose proof (literal_indent _ _ _ _ _ _ _ _ _ _ _ _ _ _ _ L' L E2) as ->;
        destruct (literal_extent _ _ _ _ _ _ _ _ _ _ _ _ _ _ L' L D' D E2) as [-> ->]; rewrite (literal_one _ _ _ _ _ _ _ _ L' L) end. f_equal. f_equal. now apply IH.
  - inversion H'; subst; exfalso_idle.
    match goal with E : pad ?n ++ _ = pad ?n' ++ _, T : Tokens _ _ _ (_ :: _) ?t |- TDash _ :: _ = TDash _ :: ?t => apply (nested_one n' _ n _) in E as [-> ->] || (symmetry in E; apply (nested_one n' _ n _) in E as [-> ->]) end. f_equal. now apply IH.
  - inversion H'; subst; exfalso_idle.
    match goal with E : _ ++ String "-" (String " " ?a) = _ ++ String "-" (String " " ?b) |- _ => change (String "-" (String " " a)) with ("- " ++ a) in E; change (String "-" (String " " b)) with ("- " ++ b) in E; apply item_one in E as [-> ->] end. f_equal. now apply IH.
Qed.

(** The end of the last line matters only for a text that goes on to it. *)
Lemma tokens_end (E E' : Prop) P i ls ts : Tokens E P i ls ts -> (E <-> E') -> Tokens E' P i ls ts.
Proof.
  intros H X. induction H as [| | |i n dash key rest folded ch m body text ls ts K Hd L Qb C D H IH|i n rest ls ts Hp H IH|]; try (constructor; auto; fail).
  apply tk_text with (folded := folded) (ch := ch) (m := m); auto. destruct L as (first & more & empty & nn & L1 & L2 & L3 & L4 & L5 & L6). exists first, more, empty, nn.
  repeat (split; [assumption|]). split; [|assumption]. unfold breaks in *. tauto.
Qed.
Definition ends_in_text (ts : list token) : Prop := exists pre i c k x, ts = (pre ++ [TText i c k x])%list.
Lemma tokens_lasting (E E' : Prop) P i ls ts : Tokens E P i ls ts -> ~ ends_in_text ts -> Tokens E' P i ls ts.
Proof.
  assert (A : forall pre t, ~ ends_in_text (pre ++ t)%list -> ~ ends_in_text t) by (intros pre t N (p & i0 & c & k & x & ->); apply N; exists (pre ++ p)%list, i0, c, k, x; now rewrite app_assoc).
  assert (A1 : forall x t, ~ ends_in_text (x :: t) -> ~ ends_in_text t) by (intros x t; apply (A [x])).
  induction 1 as [|i l ls ts I H IH|i n dash key rest ls ts K Sp NH H IH|i n dash key rest folded ch m body text ls ts K Hd L Qb C D H IH|i n rest ls ts Hp H IH|i n rest ls ts Sg H IH]; intros N.
  - constructor.
  - apply tk_idle; auto.
  - apply tk_key; auto. apply IH. apply A, A1 in N. exact N.
  - assert (N' := N). apply A, A1 in N'. apply tk_text with (folded := folded) (ch := ch) (m := m); auto.
    destruct L as (first & more & empty & nn & L1 & L2 & L3 & L4 & L5 & L6). exists first, more, empty, nn.
    repeat (split; [assumption|]). split; [|assumption]. destruct ls as [|l0 ls].
    + exfalso. inversion H; subst. apply N. exists (bullets n dash), i, (column n dash), key. eexists. reflexivity.
    + left. split; [right; discriminate|]. destruct L5 as [[_ L5]|(_ & Z & _)]; [exact L5|discriminate].
  - apply tk_nested; auto. apply IH. now apply A1 in N.
  - apply tk_item; auto. apply IH. now apply A1 in N.
Qed.

(** Files that begin with the line "---". *)
Lemma marker_idle : ~ idle marker.
Proof. intros (n & r & E & [->|(t & ->)]); do 4 (destruct n as [|n]; [discriminate E|]); discriminate E. Qed.
Lemma marker_item n r : pad n ++ "- " ++ r <> marker.
Proof. intros E. destruct n as [|n]; discriminate E. Qed.
Lemma marker_key n dash key rest : key_name key -> key_at n dash key rest <> marker.
Proof.
  intros [(c & r & -> & L) _] E. unfold key_at in E. destruct n as [|n]; [|discriminate E]. destruct dash; [discriminate E|]. cbn [pad bullet append] in E. injection E as -> _. unfold ascii_letter in L. cbv in L. lia.
Qed.
Lemma marker_no_tokens E0 P i ll ts : Tokens E0 P i ll ts -> forall pre ls, ll = (pre ++ marker :: ls)%list -> Forall idle pre -> False.
Proof.
  induction 1 as [i|i l ls ts I H IH|i n dash key rest ls ts K Sp NH H IH|i n dash key rest folded ch m body text ls ts K Hd L Qb C D H IH|i n rest ls ts Hp H IH|i n rest ls ts Sg H IH]; intros [|p pre] ls0 E F;
    try discriminate E; injection E as E E'; try (pose proof (Forall_inv F) as Fp; pose proof (Forall_inv_tail F) as F'; rewrite <- E in Fp; clear E).
  - subst l. now apply marker_idle.
  - exact (IH pre ls0 E' F').
  - now apply marker_key in E.
  - revert Fp. now apply idle_no_key.
  - now apply marker_key in E.
  - revert Fp. now apply idle_no_key.
  - now apply (marker_item n ("- " ++ rest)) in E.
  - revert Fp. apply (idle_no_item n ("- " ++ rest)).
  - now apply marker_item in E.
  - revert Fp. apply idle_no_item.
Qed.
Lemma marked_one : forall pre pre' ls ls', (pre ++ marker :: ls = pre' ++ marker :: ls')%list -> Forall idle pre -> Forall idle pre' -> pre = pre' /\ ls = ls'.
Proof.
  induction pre as [|p pre IH]; intros [|p' pre'] ls ls' E F F'; cbn [app] in E.
  - injection E as E. auto.
  - injection E as E1 _. exfalso. apply marker_idle. rewrite E1. exact (Forall_inv F').
  - injection E as E1 _. exfalso. apply marker_idle. rewrite <- E1. exact (Forall_inv F).
  - injection E as -> E2. inversion F; subst. inversion F'; subst. destruct (IH pre' ls ls') as [-> ->]; auto.
Qed.
Lemma file_one E0 P Q ls ts ts' : Contents E0 P ls ts -> Contents E0 Q ls ts' -> ts = ts'.
Proof.
  intros C C'. inversion C as [l t T E1 E2|pre l t I T E1 E2]; inversion C' as [l' t' T' E1' E2'|pre' l' t' I' T' E1' E2']; subst.
  - exact (tokens_one _ _ _ _ _ _ T _ T').
  - exfalso. exact (marker_no_tokens _ _ _ _ _ T pre' l' eq_refl I').
  - exfalso. exact (marker_no_tokens _ _ _ _ _ T' pre l eq_refl I).
  - apply marked_one in E1' as [-> ->]; auto. exact (tokens_one _ _ _ _ _ _ T _ T').
Qed.
Lemma contents_end (E E' : Prop) P ls ts : Contents E P ls ts -> (E <-> E') -> Contents E' P ls ts.
Proof. intros [l t T|pre l t I T] X; [apply cs_bare|apply cs_marked; auto]; now apply (tokens_end E). Qed.
Lemma contents_lasting (E E' : Prop) P ls ts : Contents E P ls ts -> ~ ends_in_text ts -> Contents E' P ls ts.
Proof. intros [l t T|pre l t I T] X; [apply cs_bare|apply cs_marked; auto]; now apply (tokens_lasting E). Qed.

(** ** One value *)
Section One.
  Variable inline : string -> pyval -> Prop.
  Hypothesis functional : forall r v w, inline r v -> inline r w -> v = w.
  Hypothesis apart : forall r v, inline r v -> ~ bare r.
  Notation Entries := (Entries inline).
  Notation Items := (Items inline).
  Notation Collection := (Collection inline).

  Lemma entries_head c ts d : Entries c ts d -> forall t ts', ts = t :: ts' -> ~ within c t.
  Proof. intros H t ts' -> W. inversion H; subst; destruct W as [W|W]; cbn [col_of] in W; try lia; contradiction. Qed.
  Lemma items_head c ts l : Items c ts l -> forall t ts', ts = t :: ts' -> ~ c < col_of t.
  Proof. intros H t ts' -> W. inversion H; subst; cbn [col_of] in W; lia. Qed.
  Lemma split_one (Q : token -> Prop) : forall a b a' b' : list token, (a ++ b = a' ++ b')%list -> Forall Q a -> Forall Q a' ->
    (forall t r, b = t :: r -> ~ Q t) -> (forall t r, b' = t :: r -> ~ Q t) -> a = a' /\ b = b'.
  Proof.
    induction a as [|x a IH]; intros b [|x' a'] b' E F F' N N'; cbn [app] in E.
    - auto.
    - inversion F'; subst. exfalso. eapply N; eauto.
    - inversion F; subst. exfalso. eapply N'; eauto.
    - injection E as -> E. inversion F; subst. inversion F'; subst. destruct (IH b a' b') as [-> ->]; auto.
  Qed.
  Lemma collection_some ts v : Collection ts v -> ts <> [].
  Proof. intros H. inversion H; subst; auto. Qed.

  Lemma value_one :
    (forall c ts d, Entries c ts d -> forall d', Entries c ts d' -> d = d') /\
    (forall c ts l, Items c ts l -> forall l', Items c ts l' -> l = l') /\
    (forall ts v, Collection ts v -> forall w, Collection ts w -> v = w).
  Proof.
    apply structure_ind.
    - intros c d' H. now inversion H.
    - intros c i k rest v ts d Hi _ IH d' H. inversion H; subst; try (exfalso; eapply apart; eauto; fail). f_equal; [|auto]. f_equal. eauto.
    - intros c i k x ts d _ IH d' H. inversion H; subst. f_equal. auto.
    - intros c i k rest ts d B E IH d' H. inversion H; subst.
      + exfalso. eapply apart; eauto.
      + f_equal. auto.
      + exfalso. destruct body as [|t body]; [match goal with Hc : Collection [] _ |- _ => now apply collection_some in Hc end|]. match goal with W : Forall _ (_ :: _) |- _ => inversion W; subst end. eapply (entries_head c _ d E t); [reflexivity|auto].
    - intros c i k rest body v ts d B W Hc IHb He IH d' H. inversion H; subst.
      + exfalso. eapply apart; eauto.
      + exfalso. destruct body as [|t body]; [now apply collection_some in Hc|]. inversion W; subst. match goal with He' : Entries c ((t :: body) ++ ts) _ |- _ => eapply (entries_head c _ _ He' t); [reflexivity|auto] end.
      + match goal with E : (_ ++ _ = _ ++ _)%list, W' : Forall _ _ |- _ => destruct (split_one (within c) _ _ _ _ E W' W) as [-> ->] end; try (intros t r X; eapply entries_head; [|exact X]; eassumption); repeat f_equal; auto.
    - intros c l' H. now inversion H.
    - intros c rest v ts l Hi _ IH l' H. inversion H; subst. f_equal; [eauto|auto].
    - intros c body v ts l W Hc IHb Hi IH l' H. inversion H as [| |? body' v' ts2 l2 W' Hc' Hi' E]; subst.
      match goal with E : (_ ++ _ = _ ++ _)%list |- _ => destruct (split_one (fun t => c < col_of t) _ _ _ _ E W' W) as [-> ->] end; try (intros t r X; eapply items_head; [|exact X]; eassumption); f_equal; auto.
    - intros c ts d Ne E IH U w H. inversion H as [c' ? d' N' E'|c' ? l N' E']; subst.
      + assert (c' = c) by (inversion E; subst; [congruence| | | |]; inversion E'; subst; auto). subst c'. f_equal. auto.
      + exfalso. inversion E; subst; inversion E'; congruence.
    - intros c ts l Ne E IH w H. inversion H as [c' ? d' N' E'|c' ? l' N' E']; subst.
      + exfalso. inversion E; subst; inversion E'; congruence.
      + assert (c' = c) by (inversion E; subst; [congruence| |]; inversion E'; subst; auto). subst c'. f_equal. auto.
  Qed.
  Theorem document_one E P Q lines v w : Document inline E P lines v -> Document inline E Q lines w -> v = w.
  Proof. intros [_ (ts & T & C)] [_ (ts' & T' & C')]. rewrite (file_one _ _ _ _ _ _ T T') in C. exact (proj2 (proj2 value_one) ts' v C w C'). Qed.
End One.
