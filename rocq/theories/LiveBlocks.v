(** The block of definitions of one method, in memory and on disk. *)
From Coq Require Import Ascii String List Bool Arith ZArith Lia Permutation.
From Verif Require Import PyStr PyStrFacts Utils NamesFacts DocstringFacts Exc SpecNames SpecText SpecPyFile
  YamlFacts YamlLines YamlEntries PyFile PyFileFacts PyFilePrivate Live SpecLive LiveText LiveMethods.
Import ListNotations.
Local Open Scope string_scope.
Local Open Scope nat_scope.

Definition method_name (n : string) : Prop := n = "from_data" \/ n = "from_yaml_file".

Lemma prefix_within q (w : string) : forall b X Y, w ++ b = X ++ String q Y -> no_char q w -> exists b', X = w ++ b'.
Proof.
  induction w as [|c w IH]; intros b X Y E H; [exists X; reflexivity|].
  destruct X as [|d X]; cbn [append] in E; injection E as -> E.
  - apply no_char_chars in H. exfalso. apply H. now left.
  - destruct (IH b X Y E) as [b' ->]; [|now exists b'].
    change (String d w) with (String d "" ++ w) in H. now apply no_char_app in H.
Qed.

Lemma contains_skip c sub D s : no_char c D -> contains (String c sub) (D ++ s) = contains (String c sub) s.
Proof.
  induction D as [|d D IH]; intros H; [reflexivity|]. change (String d D) with (String d "" ++ D) in H. apply no_char_app in H as [Hd HD].
  cbn [append contains startswith]. destruct (Ascii.eqb c d) eqn:E.
  - apply Ascii.eqb_eq in E. subst. apply no_char_chars in Hd. exfalso. apply Hd. now left.
  - cbn [andb orb]. auto.
Qed.

Lemma quote_no x : Forall (fun c => ~ quote_mark c) (chars x) -> no_char dquote_char x.
Proof. intros H. apply no_char_chars. intros Hin. rewrite Forall_forall in H. apply (H _ Hin). now left. Qed.

Lemma not_assigned_contains label l : contains label l = false -> assigns label l = Val false.
Proof. intros H. unfold assigns. now rewrite H. Qed.

Lemma not_assigned_quoted label X Y : label <> "" -> no_char dquote_char label -> contains label X = false ->
  assigns label (X ++ String dquote_char Y) = Val false.
Proof.
  intros H0 Hq HX. apply assigns_false; [exact H0|]. intros (_ & a & b & E & Ha).
  destruct (prefix_within dquote_char (a ++ label) b X Y) as [b' ->].
  - now rewrite app_assoc_s.
  - rewrite no_char_app. split; [now apply quote_no | exact Hq].
  - assert (C : contains label ((a ++ label) ++ b') = true) by (apply contains_spec; exists a, b'; now rewrite app_assoc_s). congruence.
Qed.

Section Method.
  Variable name : string.
  Variable m : method.
  Hypothesis Hname : method_name name.
  Hypothesis Hm : good_method name m = true.

  Lemma good_parts :
    (one_line (m_args1 m) = true /\ one_line (m_args2 m) = true /\ one_line (m_result m) = true /\ one_line (m_end m) = true) /\
    (no_at (m_args1 m) = true /\ no_at (m_args2 m) = true /\ no_at (m_result m) = true /\ no_at (m_end m) = true) /\
    find_str "class_name" (pre name m ++ "class_name") = Some (String.length (pre name m)) /\
    (exists T a2, m_args2 m = String T a2 /\ (T = chr 44 \/ T = chr 41)) /\
    no_char ":" (m_result m) /\ no_char ">" (m_result m) /\ no_char ":" (m_end m) /\ no_char ">" (m_end m) /\
    contains "classes_created" (pre name m ++ "class_name: Literal[") = false /\
    contains "classes_created" (plain_def name m) = false.
  Proof.
    pose proof Hm as H. unfold good_method in H. rewrite !andb_true_iff, !negb_true_iff in H.
    fold (pre name m) in H.
    destruct H as (((((((((((((((a & b) & c) & d) & e) & f) & g) & h) & i) & j) & k) & l) & mm) & n) & o) & p).
    repeat (split; [tauto|]).
    split. { destruct (find_str "class_name" (pre name m ++ "class_name")) as [x|]; [|discriminate]. apply Nat.eqb_eq in i. now rewrite i. }
    split. { destruct (m_args2 m) as [|T a2]; [discriminate|]. exists T, a2. split; [reflexivity|].
             apply orb_true_iff in j as [j|j]; cbn [startswith] in j; apply andb_true_iff in j as [j _]; apply Ascii.eqb_eq in j; subst; auto. }
    repeat (split; [apply contains_no; assumption|]). auto.
  Qed.

  Lemma defines_def n ann res : method_name n -> defines n (def_line name m ann res) = Val (String.eqb n name).
  Proof.
    intros Hn. unfold def_line. set (r := m_args1 m ++ _).
    assert (N : it_is_string ("    def " ++ name ++ r) name = Val false).
    { destruct (it_is_string_spec ("    def " ++ name ++ r) name) as (b & E & B).
      - destruct Hname as [-> | ->]; discriminate.
      - apply contains_spec. now exists "    def ", r.
      - rewrite E. f_equal. apply B. exists "    def ", r. split; [reflexivity|]. repeat constructor; intros [Q|Q]; vm_compute in Q; discriminate. }
    unfold defines. destruct Hname as [Hx | Hx]; rewrite Hx in *.
    - destruct (strip_starts_with "    " "def from_dat" "a" r eq_refl) as [r' E]; [now exists "d"%char, "ef from_dat" | reflexivity|].
      replace ("    def " ++ "from_data" ++ r) with ("    " ++ "def from_dat" ++ String "a" r) in * by reflexivity. rewrite E.
      destruct Hn as [-> | ->]; [|reflexivity].
      change (startswith ("def " ++ "from_data") ("def from_dat" ++ String "a" r')) with true. cbv iota. rewrite N. reflexivity.
    - destruct (strip_starts_with "    " "def from_yaml_fil" "e" r eq_refl) as [r' E]; [now exists "d"%char, "ef from_yaml_fil" | reflexivity|].
      replace ("    def " ++ "from_yaml_file" ++ r) with ("    " ++ "def from_yaml_fil" ++ String "e" r) in * by reflexivity. rewrite E.
      destruct Hn as [-> | ->]; [reflexivity|].
      change (startswith ("def " ++ "from_yaml_file") ("def from_yaml_fil" ++ String "e" r')) with true. cbv iota. rewrite N. reflexivity.
  Qed.

  Lemma group_head k l : exists r, group k l = "    @" ++ r.
  Proof. destruct k; eexists; unfold group, decs; cbn [str_repeat]; reflexivity. Qed.
  Lemma defines_group n k l : defines n (group k l) = Val false.
  Proof. destruct (group_head k l) as [r ->]. apply (defines_not n "    " "@" r); [reflexivity | reflexivity | discriminate]. Qed.
  Lemma defines_overload n : defines n overload_line = Val false.
  Proof. apply (defines_not n "    " "@" "overload"); [reflexivity | reflexivity | discriminate]. Qed.
  Lemma defines_override n : defines n override_line = Val false.
  Proof. apply (defines_not n "    " "@" "override"); [reflexivity | reflexivity | discriminate]. Qed.
  Lemma at_group k l : contains "@" (group k l) = true.
  Proof. destruct (group_head k l) as [r ->]. reflexivity. Qed.

  Lemma no_at_def ann res : no_char "@" ann -> no_char "@" res -> contains "@" (def_line name m ann res) = false.
  Proof.
    intros Ha Hr. destruct good_parts as (_ & (A1 & A2 & _ & A4) & _). unfold no_at in *. rewrite negb_true_iff in *.
    apply contains_no. apply contains_no in A1, A2, A4. unfold def_line. rewrite !no_char_app.
    destruct Hname as [-> | ->]; repeat split; auto.
  Qed.
  Lemma no_at_plain : contains "@" (plain_def name m) = false.
  Proof.
    apply no_at_def; [reflexivity|]. destruct good_parts as (_ & (_ & _ & A3 & _) & _). unfold no_at in A3. rewrite negb_true_iff in A3. now apply contains_no.
  Qed.
  Lemma no_at_overload_def c : is_compatible c = true -> contains "@" (overload_def name m c) = false.
  Proof.
    intros Hc. apply no_at_def; [|now apply name_no]. unfold literal. rewrite !no_char_app. repeat split; auto. now apply name_no.
  Qed.

  Lemma loud_def ann res : contains ")" (def_line name m ann res) || contains ":" (def_line name m ann res) = true.
  Proof.
    apply orb_true_iff. right. apply contains_spec. exists (pre name m ++ "class_name"), (ann ++ m_args2 m ++ "-> " ++ res ++ ":" ++ m_end m).
    unfold def_line, pre. rewrite !app_assoc_s. reflexivity.
  Qed.
  Lemma loud_app a l : contains ")" l || contains ":" l = true -> contains ")" (a ++ l) || contains ":" (a ++ l) = true.
  Proof.
    rewrite !orb_true_iff, !contains_spec. intros [(x & y & ->) | (x & y & ->)]; [left | right]; exists (a ++ x), y; now rewrite !app_assoc_s.
  Qed.

  Lemma one_line_def ann res : one_line ann = true -> one_line res = true -> one_line (def_line name m ann res) = true.
  Proof.
    intros Ha Hr. destruct good_parts as ((A1 & A2 & _ & A4) & _). unfold def_line. rewrite !one_line_app, Ha, Hr, A1, A2, A4.
    destruct Hname as [-> | ->]; reflexivity.
  Qed.
  Lemma one_line_plain : one_line (plain_def name m) = true.
  Proof. apply one_line_def; [reflexivity|]. now destruct good_parts as ((_ & _ & A & _) & _). Qed.
  Lemma one_line_overload_def c : is_compatible c = true -> one_line (overload_def name m c) = true.
  Proof.
    intros Hc. apply one_line_def; [|now apply name_one_line]. unfold literal. rewrite !one_line_app, (name_one_line c Hc). reflexivity.
  Qed.

  Lemma decs_no_c k : no_char "c" (decs k).
  Proof. apply decs_no; reflexivity. Qed.
  Lemma edit_group c k ann res : no_char (chr 44) ann -> no_char (chr 41) ann -> no_char ">" res ->
    edit_signature "class_name" c (group k (def_line name m ann res)) = Val (group k (overload_def name m c)).
  Proof.
    intros A1 A2 R. destruct good_parts as (_ & _ & F & (T & a2 & E2 & HT) & _ & _ & E3 & E4 & _).
    pose proof (edit_text (decs k) c T ann (m_args2 m) a2 res (m_end m) (decs_no_c k) (pre name m) F A1 A2 E2 HT R E4 E3) as X.
    unfold group, overload_def, def_line. unfold pre in X. rewrite !app_assoc_s in *. exact X.
  Qed.

  Lemma assigns_group c k : is_compatible c = true -> assigns "classes_created" (group k (overload_def name m c)) = Val false.
  Proof.
    intros Hc. destruct good_parts as (_ & _ & _ & _ & _ & _ & _ & _ & C & _).
    unfold group, overload_def, def_line, literal.
    replace (decs k ++ "    def " ++ name ++ m_args1 m ++ "class_name:" ++ (" Literal[""" ++ c ++ """]") ++ m_args2 m ++ "-> " ++ c ++ ":" ++ m_end m)
      with ((decs k ++ pre name m ++ "class_name: Literal[") ++ String dquote_char (c ++ """]" ++ m_args2 m ++ "-> " ++ c ++ ":" ++ m_end m))
      by (unfold pre; rewrite !app_assoc_s; reflexivity).
    apply not_assigned_quoted; [discriminate | reflexivity |]. rewrite contains_skip; [exact C | apply decs_no_c].
  Qed.
  Lemma assigns_overload_def c : is_compatible c = true -> assigns "classes_created" (overload_def name m c) = Val false.
  Proof.
    intros Hc. destruct good_parts as (_ & _ & _ & _ & _ & _ & _ & _ & C & _).
    unfold overload_def, def_line, literal.
    replace ("    def " ++ name ++ m_args1 m ++ "class_name:" ++ (" Literal[""" ++ c ++ """]") ++ m_args2 m ++ "-> " ++ c ++ ":" ++ m_end m)
      with ((pre name m ++ "class_name: Literal[") ++ String dquote_char (c ++ """]" ++ m_args2 m ++ "-> " ++ c ++ ":" ++ m_end m))
      by (unfold pre; rewrite !app_assoc_s; reflexivity).
    apply not_assigned_quoted; [discriminate | reflexivity | exact C].
  Qed.
  Lemma assigns_plain : assigns "classes_created" (plain_def name m) = Val false.
  Proof. apply not_assigned_contains. apply good_parts. Qed.

  (** ** In memory: the overloads added since the file was read are elements of several lines. *)
  Inductive Mem : list string -> nat -> list string -> Prop :=
    | Mem0 : forall a, Mem [] a (repeat overload_line a ++ [override_line; plain_def name m])%list
    | MemS : forall c cs k l, is_compatible c = true -> Mem cs k l ->
        Mem (c :: cs) (S k) (group (S k) (overload_def name m c) :: overload_line :: l).

  Definition Block (cs ls : list string) : Prop :=
    exists cf cm k f mm, Permutation cs (cf ++ cm)%list /\ Overloads name m cf f /\ Forall (fun c => is_compatible c = true) cf /\
      Mem cm k mm /\ (cf = [] \/ 1 <= k) /\ ls = (f ++ mm)%list.

  Lemma Forall_repeat {A} (P : A -> Prop) x n : P x -> Forall P (repeat x n).
  Proof. intros H. induction n; constructor; auto. Qed.

  Lemma Mem_split cs k l : Mem cs k l ->
    exists D, l = (D ++ [plain_def name m])%list /\
      Forall (fun x => (forall n, defines n x = Val false) /\ contains "@" x = true) D /\
      last D "" = override_line /\ D <> [].
  Proof.
    induction 1 as [a | c cs k l Hc H IH].
    - exists (repeat overload_line a ++ [override_line])%list. split; [now rewrite <- app_assoc|]. split.
      + apply Forall_app. split; [apply Forall_repeat; split; [intros; apply defines_overload | reflexivity]|].
        constructor; [|constructor]. split; [intros; apply defines_override | reflexivity].
      + split; [apply last_snoc|]. destruct a; discriminate.
    - destruct IH as (D & -> & HD & HL & HN). exists (group (S k) (overload_def name m c) :: overload_line :: D).
      split; [reflexivity|]. split; [|split; [|discriminate]].
      + constructor; [split; [intros; apply defines_group | apply at_group]|].
        constructor; [split; [intros; apply defines_overload | reflexivity]|]. exact HD.
      + destruct D; [congruence|]. exact HL.
  Qed.

  (** The first lines, up to the end of the first signature. *)
  Lemma join_repeat k x : x <> [] -> join nl (repeat overload_line k ++ x)%list = str_repeat k (overload_line ++ nl) ++ join nl x.
  Proof.
    intros Hx. induction k; [reflexivity|]. cbn [repeat app str_repeat]. rewrite join_cons by (destruct k; [exact Hx | discriminate]).
    rewrite IHk. now rewrite !app_assoc_s.
  Qed.
  Lemma Mem_signature cs k l : Mem cs k l ->
    exists h s rest ann res, l = (h ++ s :: rest)%list /\ Forall (fun x => contains ")" x || contains ":" x = false) h /\
      contains ")" s || contains ":" s = true /\ join nl (h ++ [s]) = group k (def_line name m ann res) /\
      no_char (chr 44) ann /\ no_char (chr 41) ann /\ no_char ">" res.
  Proof.
    destruct 1 as [a | c cs k l Hc H].
    - exists (repeat overload_line a ++ [override_line])%list, (plain_def name m), [], " str", (m_result m).
      split; [now rewrite <- app_assoc|]. split.
      + apply Forall_app. split; [apply Forall_repeat; reflexivity | repeat constructor].
      + split; [apply loud_def|]. split.
        * rewrite <- app_assoc, join_repeat by discriminate. unfold group, decs, plain_def. now rewrite !app_assoc_s.
        * split; [reflexivity|]. split; [reflexivity|]. apply good_parts.
    - exists [], (group (S k) (overload_def name m c)), (overload_line :: l), (literal c), c.
      split; [reflexivity|]. split; [constructor|]. split; [apply loud_app, loud_def|]. split; [reflexivity|].
      unfold literal. split; [|split]; [| |now apply name_no]; rewrite !no_char_app; repeat split; auto; now apply name_no.
  Qed.

  Lemma Overloads_prev n p cs f : Overloads name m cs f -> method_name n -> prev_ok n p f.
  Proof.
    intros H Hn. revert p. induction H as [|k c cs f H IH]; intros p; [exact I|].
    apply prev_ok_app. split; [apply prev_ok_none, Forall_repeat, defines_overload|].
    cbn [prev_ok]. split; [left; apply defines_override|]. split; [|apply IH].
    unfold overload_def. rewrite defines_def by assumption. destruct (String.eqb n name); auto.
  Qed.
  Lemma Overloads_last L cs f : Overloads name m cs f -> Forall (fun c => is_compatible c = true) cs ->
    contains "@" (last L "") = false -> contains "@" (last (L ++ f) "") = false.
  Proof.
    intros H. revert L. induction H as [|k c cs f H IH]; intros L HF HL; [now rewrite app_nil_r|]. inversion HF; subst.
    replace (L ++ repeat overload_line (S k) ++ override_line :: overload_def name m c :: f)%list
      with ((L ++ repeat overload_line (S k) ++ [override_line; overload_def name m c]) ++ f)%list by (now rewrite <- !app_assoc).
    apply IH; [assumption|].
    replace (L ++ repeat overload_line (S k) ++ [override_line; overload_def name m c])%list
      with ((L ++ repeat overload_line (S k) ++ [override_line]) ++ [overload_def name m c])%list by (now rewrite <- !app_assoc).
    rewrite last_snoc. now apply no_at_overload_def.
  Qed.
  Lemma Overloads_app a b f g : Overloads name m a f -> Overloads name m b g -> Overloads name m (a ++ b) (f ++ g).
  Proof.
    induction 1 as [|k c cs f H IH]; intros Hg; [exact Hg|]. cbn [app].
    replace ((repeat overload_line (S k) ++ override_line :: overload_def name m c :: f) ++ g)%list
      with (repeat overload_line (S k) ++ override_line :: overload_def name m c :: (f ++ g))%list by (now rewrite <- app_assoc).
    constructor. auto.
  Qed.

  Lemma Block_prev n p cs B : Block cs B -> method_name n -> prev_ok n p B.
  Proof.
    intros (cf & cm & k & f & mm & _ & Hf & _ & HM & _ & ->) Hn. apply prev_ok_app. split; [eapply Overloads_prev; eassumption|].
    destruct (Mem_split _ _ _ HM) as (D & -> & HD & HL & HN). apply prev_ok_app. split.
    - apply prev_ok_none. eapply Forall_impl; [|exact HD]. cbn. intros x [H _]. apply H.
    - cbn [prev_ok]. split; [|exact I]. unfold plain_def. rewrite defines_def by assumption.
      destruct (String.eqb n name); [right | now left]. split; [reflexivity|].
      destruct D as [|x D]; [congruence|]. rewrite <- HL. clear. revert x. induction D as [|y D IH]; intros x; [reflexivity|]. cbn [last] in *. apply IH.
  Qed.
  Lemma Block_other n cs B : Block cs B -> method_name n -> n <> name -> Forall (fun l => defines n l = Val false) B.
  Proof.
    intros (cf & cm & k & f & mm & _ & Hf & _ & HM & _ & ->) Hn Hd.
    assert (E : forall ann res, defines n (def_line name m ann res) = Val false)
      by (intros; rewrite defines_def by assumption; destruct (String.eqb_spec n name); congruence).
    apply Forall_app. split.
    - clear HM. induction Hf as [|j c cs' f H IH]; [constructor|]. apply Forall_app. split; [apply Forall_repeat, defines_overload|].
      constructor; [apply defines_override|]. constructor; [apply E | exact IH].
    - destruct (Mem_split _ _ _ HM) as (D & -> & HD & _). apply Forall_app. split; [|repeat constructor; apply E].
      eapply Forall_impl; [|exact HD]. cbn. intros x [H _]. apply H.
  Qed.
  Lemma Block_assigns cs B : Block cs B -> Forall (fun l => assigns "classes_created" l = Val false) B.
  Proof.
    intros (cf & cm & k & f & mm & _ & Hf & HC & HM & _ & ->). apply Forall_app. split.
    - clear HM. induction Hf as [|j c cs' f H IH]; [constructor|]. inversion HC; subst. apply Forall_app. split; [apply Forall_repeat; reflexivity|].
      constructor; [reflexivity|]. constructor; [now apply assigns_overload_def | auto].
    - clear -HM Hname Hm. induction HM as [a | c cs k l Hc H IH].
      + apply Forall_app. split; [apply Forall_repeat; reflexivity|]. repeat constructor. apply assigns_plain; assumption.
      + constructor; [now apply assigns_group|]. constructor; [reflexivity | exact IH].
  Qed.

  (** ** One more overload *)
  Lemma last_method_block L R cs f k mm cf :
    L <> [] -> contains "@" (last L "") = false ->
    Forall (fun l => defines name l = Val false) L -> Forall (fun l => defines name l = Val false) R ->
    Overloads name m cf f -> Forall (fun c => is_compatible c = true) cf -> Mem cs k mm -> forall o,
    o = [] \/ o = [overload_line] ->
    exists xs, search_method true name (L ++ f ++ o ++ mm ++ R)%list = Val (xs ++ [Z.of_nat (List.length L + List.length f)])%list.
  Proof.
    intros HL HA DL DR Hf HC HM o Ho. destruct (Mem_split _ _ _ HM) as (D & -> & HD & _ & _).
    replace (L ++ f ++ o ++ (D ++ [plain_def name m]) ++ R)%list with (L ++ f ++ ((o ++ D) ++ [plain_def name m]) ++ R)%list by (now rewrite <- !app_assoc).
    apply search_method_last; auto.
    - eapply Overloads_last; eassumption.
    - eapply prev_ok_defines. apply (Overloads_prev name "" _ _ Hf). exact Hname.
    - apply Forall_app. split.
      + destruct Ho as [-> | ->]; constructor; [|constructor]. split; [apply defines_overload | reflexivity].
      + eapply Forall_impl; [|exact HD]. cbn. intros x [H ?]. auto.
    - unfold plain_def. rewrite defines_def by exact Hname. now rewrite String.eqb_refl.
  Qed.

  Lemma add_overload_block L R cs B c :
    L <> [] -> contains "@" (last L "") = false ->
    Forall (fun l => defines name l = Val false) L -> Forall (fun l => defines name l = Val false) R ->
    Block cs B -> is_compatible c = true ->
    exists l1 B', ensure_decorator name (L ++ B ++ R)%list = Val l1 /\
      insert_overload name c l1 = Val (L ++ B' ++ R)%list /\ Block (c :: cs) B'.
  Proof.
    intros HL HA DL DR HB Hc.
    assert (SD : search_decorator "overload" name (L ++ B ++ R)%list = Val []).
    { apply (search_decorator_none name ""). 
      - apply prev_ok_app. split; [now apply prev_ok_none|]. apply prev_ok_app. split; [eapply Block_prev; eassumption | now apply prev_ok_none].
      - destruct L as [|x L]; [congruence|]. now inversion DL. }
    destruct HB as (cf & cm & k & f & mm & HP & Hf & HC & HM & Hk & ->).
    destruct (last_method_block L R cm f k mm cf HL HA DL DR Hf HC HM [] (or_introl eq_refl)) as [xs E].
    cbn [app] in E.
    exists (L ++ f ++ overload_line :: mm ++ R)%list, (f ++ group (S k) (overload_def name m c) :: overload_line :: mm)%list.
    split; [|split].
    - unfold ensure_decorator. rewrite SD. cbn [andthen]. rewrite <- (app_assoc f mm R), E. cbn [andthen].
      destruct (xs ++ _)%list eqn:EX; [destruct xs; discriminate|]. rewrite <- EX, last_of_snoc. cbn [andthen]. f_equal.
      rewrite <- app_length. replace (L ++ f ++ mm ++ R)%list with ((L ++ f) ++ mm ++ R)%list by (now rewrite <- !app_assoc).
      rewrite add_line_at. now rewrite <- !app_assoc.
    - destruct (last_method_block L R cm f k mm cf HL HA DL DR Hf HC HM [overload_line] (or_intror eq_refl)) as [ys E'].
      cbn [app] in E'. unfold insert_overload, get_signature, last_method. rewrite E'. cbn [andthen]. rewrite last_of_snoc. cbn [andthen].
      destruct (Mem_signature _ _ _ HM) as (h & s & rest & ann & res & Emm & Hh & Hs & Hj & N1 & N2 & N3).
      set (all := (L ++ f ++ overload_line :: mm ++ R)%list).
      assert (Eall : all = ((L ++ f) ++ (overload_line :: h) ++ s :: (rest ++ R))%list).
      { unfold all. rewrite Emm. rewrite <- !app_assoc. reflexivity. }
      assert (W : walk_down (2 * List.length all + 1) all (Z.of_nat (List.length L + List.length f)) =
                  Val (Z.of_nat (List.length L + List.length f + List.length (overload_line :: h)))).
      { rewrite <- app_length, Eall. apply walk_down_stop.
        - constructor; [reflexivity | exact Hh].
        - exact Hs.
        - rewrite !app_length. cbn [List.length]. lia. }
      rewrite W. cbn [andthen].
      assert (SL : slice (Z.of_nat (List.length L + List.length f))
                 (Z.of_nat (List.length L + List.length f + List.length (overload_line :: h)) + 1) all = (overload_line :: h ++ [s])%list).
      { rewrite <- app_length.
        replace (Z.of_nat (List.length (L ++ f) + List.length (overload_line :: h)) + 1)%Z
          with (Z.of_nat (List.length (L ++ f) + List.length (overload_line :: h ++ [s])%list))
          by (rewrite !app_length; cbn [List.length]; rewrite app_length; cbn [List.length]; lia).
        replace all with ((L ++ f) ++ (overload_line :: h ++ [s]) ++ (rest ++ R))%list.
        - apply slice_mid.
        - rewrite Eall. cbn [app]. rewrite <- !app_assoc. reflexivity. }
      rewrite SL. rewrite join_cons by (destruct h; discriminate). rewrite Hj.
      replace (overload_line ++ nl ++ group k (def_line name m ann res)) with (group (S k) (def_line name m ann res))
        by (unfold group, decs; cbn [str_repeat]; now rewrite !app_assoc_s).
      rewrite edit_group by assumption. cbn [andthen]. f_equal.
      rewrite <- app_length. unfold all. replace (L ++ f ++ overload_line :: mm ++ R)%list with ((L ++ f) ++ overload_line :: mm ++ R)%list by (now rewrite <- !app_assoc).
      rewrite add_line_at. rewrite <- !app_assoc. reflexivity.
    - exists cf, (c :: cm), (S k), f, (group (S k) (overload_def name m c) :: overload_line :: mm).
      split; [|split; [exact Hf | split; [exact HC | split; [now constructor | split; [right; lia | reflexivity]]]]].
      etransitivity; [|apply Permutation_middle]. now constructor.
  Qed.

  (** ** The text of a block, read again *)
  Lemma flat_one l : one_line l = true -> flat [l] = [l].
  Proof. intros H. apply flat_lines. constructor; [exact H | constructor]. Qed.

  Lemma split_char_app c a b : no_char c a -> split_char c (a ++ String c b) = a :: split_char c b.
  Proof.
    induction a as [|d a IH]; intros H.
    - cbn [append split_char]. now rewrite Ascii.eqb_refl.
    - change (String d a) with (String d "" ++ a) in H. apply no_char_app in H as [Hd Ha]. cbn [append split_char].
      destruct (Ascii.eqb c d) eqn:E; [apply Ascii.eqb_eq in E; subst; apply no_char_chars in Hd; exfalso; apply Hd; now left|].
      rewrite IH by assumption. reflexivity.
  Qed.
  Lemma one_line_no_nl l : one_line l = true -> no_char (chr 10) l.
  Proof. unfold one_line, no_char. apply str_forall_impl. intros c Hc.
    assert (G : is_linebreak c || negb (Ascii.eqb (chr 10) c) = true) by by_chars c. apply negb_true_iff in Hc. now rewrite Hc in G. Qed.
  Lemma flat_group k l : one_line l = true -> flat [group k l] = (repeat overload_line k ++ [override_line; l])%list.
  Proof.
    intros Hl. unfold flat. cbn [map concat]. rewrite app_nil_r. unfold group, decs. rewrite !app_assoc_s. induction k as [|k IH].
    - cbn [str_repeat repeat app]. change ("" ++ override_line ++ nl ++ l) with (override_line ++ String (chr 10) l).
      rewrite split_char_app by reflexivity. f_equal.
      pose proof (flat_one l Hl) as E. unfold flat in E. cbn [map concat] in E. now rewrite app_nil_r in E.
    - cbn [str_repeat repeat app]. rewrite !app_assoc_s.
      change (overload_line ++ nl ++ str_repeat k (overload_line ++ nl) ++ override_line ++ nl ++ l)
        with (overload_line ++ String (chr 10) (str_repeat k (overload_line ++ nl) ++ override_line ++ nl ++ l)).
      rewrite split_char_app by reflexivity. f_equal. exact IH.
  Qed.

  Lemma Overloads_one_line cs f : Overloads name m cs f -> Forall (fun c => is_compatible c = true) cs -> Forall (fun l => one_line l = true) f.
  Proof.
    induction 1 as [|j c cs' f H IH]; intros HC; [constructor|]. inversion HC; subst. apply Forall_app. split; [apply Forall_repeat; reflexivity|].
    constructor; [reflexivity|]. constructor; [now apply one_line_overload_def | auto].
  Qed.

  Lemma flat_Mem cs k l : Mem cs k l -> Forall (fun c => is_compatible c = true) cs /\ forall j,
    exists f a, Overloads name m cs f /\ (repeat overload_line j ++ flat l)%list = (f ++ repeat overload_line a ++ [override_line; plain_def name m])%list /\
      (cs = [] -> a = j + k) /\ (cs <> [] -> 1 <= a).
  Proof.
    induction 1 as [a | c cs k l Hc H [IHc IH]].
    - split; [constructor|]. intros j. exists [], (j + a). split; [constructor|]. split; [|split; [reflexivity | congruence]].
      rewrite flat_lines.
      + cbn [app]. rewrite repeat_app, <- app_assoc. reflexivity.
      + apply Forall_app. split; [apply Forall_repeat; reflexivity|]. repeat constructor. now apply one_line_plain.
    - split; [now constructor|]. intros j. destruct (IH 1) as (f & a & Hf & E & E0 & E1).
      exists (repeat overload_line (S (j + k)) ++ override_line :: overload_def name m c :: f)%list, a.
      split; [now constructor|]. split; [|split; [discriminate|]].
      + change (group (S k) (overload_def name m c) :: overload_line :: l) with ([group (S k) (overload_def name m c)] ++ [overload_line] ++ l)%list.
        rewrite !flat_app, flat_group by (now apply one_line_overload_def). rewrite (flat_one overload_line eq_refl).
        change [overload_line] with (repeat overload_line 1). rewrite E.
        replace (S (j + k)) with (j + S k) by lia. rewrite repeat_app, <- !app_assoc. reflexivity.
      + intros _. destruct cs as [|c' cs']; [rewrite E0 by reflexivity; lia | apply E1; discriminate].
  Qed.

  Lemma flat_Block cs B : Block cs B -> MethodPart name m cs (flat B) /\ Forall (fun c => is_compatible c = true) cs.
  Proof.
    intros (cf & cm & k & f & mm & HP & Hf & HC & HM & Hk & ->). destruct (flat_Mem _ _ _ HM) as [HCm X]. destruct (X 0) as (g & a & Hg & E & E0 & E1).
    cbn [repeat app] in E. split.
    - exists (cf ++ cm)%list, (f ++ g)%list, a. split; [exact HP|]. split; [now apply Overloads_app|]. split.
      + destruct cm as [|x cm]; [|right; apply E1; discriminate].
        specialize (E0 eq_refl). rewrite app_nil_r in HP. destruct Hk as [-> | Hk]; [left; now apply Permutation_sym, Permutation_nil in HP | right; lia].
      + rewrite flat_app, E, flat_lines by (eapply Overloads_one_line; eassumption). now rewrite <- app_assoc.
    - eapply Permutation_Forall; [apply Permutation_sym; exact HP|]. apply Forall_app. auto.
  Qed.
  Lemma Block_of_part cs B : MethodPart name m cs B -> Forall (fun c => is_compatible c = true) cs -> Block cs B.
  Proof.
    intros (cs' & over & k & HP & HO & Hk & ->) HC. exists cs', [], k, over, (repeat overload_line k ++ [override_line; plain_def name m])%list.
    rewrite app_nil_r. split; [exact HP|]. split; [exact HO|]. split; [eapply Permutation_Forall; eassumption|].
    split; [constructor|]. split; [|reflexivity]. destruct Hk as [-> | Hk]; [left; now apply Permutation_nil | auto].
  Qed.
  Lemma part_one_line cs B : MethodPart name m cs B -> Forall (fun c => is_compatible c = true) cs -> Forall (fun l => one_line l = true) B.
  Proof.
    intros (cs' & over & k & HP & HO & Hk & ->) HC. apply Forall_app. split; [eapply Overloads_one_line; [eassumption | eapply Permutation_Forall; eassumption]|].
    apply Forall_app. split; [apply Forall_repeat; reflexivity|]. repeat constructor. now apply one_line_plain.
  Qed.
End Method.
