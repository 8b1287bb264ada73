(** Block comments: which lines they consist of and what happens to their words. *)
From Coq Require Import Ascii String List Bool Arith ZArith Lia.
From Verif Require Import PyStr PyStrFacts Exc Yaml SpecNames SpecText SpecImports NamesFacts DocstringFacts SpecYaml YamlFacts YamlLines.
Import ListNotations.
Local Open Scope string_scope.
Local Open Scope nat_scope.

(** ** Trimming *)
Lemma rstrip_last p s : rstrip_by p s = "" \/ exists r c, rstrip_by p s = r ++ String c "" /\ p c = false.
Proof.
  induction s as [|c s IH]; simpl; [auto|]. destruct (rstrip_by p s) as [|d t] eqn:E.
  - destruct (p c) eqn:Ec; [auto|]. right. exists "", c. auto.
  - destruct IH as [IH|(r & e & H & He)]; [discriminate|]. right. exists (String c r), e. simpl. split; [congruence|auto].
Qed.
Lemma not_white c : is_space c = false -> ~ white c.
Proof. intros H W. apply is_space_white in W. congruence. Qed.
Lemma strip_Trimmed s : Trimmed s (strip s).
Proof.
  destruct (strip_by_spec is_space s) as (a & b & E & Ha & Hb). exists a, b.
  split; [exact E|]. split; [now apply blank_spec|]. split; [now apply blank_spec|].
  fold (strip s). split.
  - destruct (strip s) as [|c r] eqn:Es; [auto|]. right. exists c, r. split; [auto|].
    destruct (strip_by_head _ _ _ _ Es) as (? & ? & _ & _ & Hc). now apply not_white.
  - destruct (rstrip_last is_space (lstrip_by is_space s)) as [H|(r & c & H & Hc)]; [left; exact H|].
    right. exists r, c. split; [exact H|now apply not_white].
Qed.

(** ** The lines visited by the loop *)
Definition has_hash (col : nat) (l : string) : bool :=
  match str_nth l col with Some c => Ascii.eqb c hash_c | None => false end.
Definition text_at (col : nat) (l : string) : string := strip (drop (col + 1) l).
Fixpoint run (col : nat) (l : list string) : list string :=
  match l with
  | [] => []
  | x :: r => if has_hash col x then x :: run col r else []
  end.

Lemma has_hash_spec col l : has_hash col l = true -> hash_at col l (text_at col l).
Proof.
  unfold has_hash. destruct (str_nth l col) as [c|] eqn:E; [|discriminate]. intros H. apply Ascii.eqb_eq in H. subst c.
  destruct (str_nth_Some _ _ _ E) as (a & b & -> & <-). exists a, b. split; [reflexivity|split; [reflexivity|]].
  unfold text_at. rewrite <- drop_drop, drop_app. apply strip_Trimmed.
Qed.
Lemma has_hash_false col l t : has_hash col l = false -> ~ hash_at col l t.
Proof.
  unfold has_hash. intros H (a & b & -> & <- & _). cbn [String.append] in H.
  change (a ++ String "#" b) with (a ++ String hash_c b) in H. rewrite str_nth_app in H. now rewrite Ascii.eqb_refl in H.
Qed.

Lemma block_lines_run lines col step : forall visited fuel i,
  (forall k, py_nth lines (i + Z.of_nat k * step) = nth_error visited k) ->
  List.length visited < fuel ->
  block_lines fuel lines col i step = Some (map (text_at col) (run col visited)).
Proof.
  induction visited as [|x r IH]; intros fuel i H L; (destruct fuel as [|fuel]; [simpl in L; lia|]); cbn [block_lines].
  - specialize (H 0). simpl in H. rewrite Z.add_0_r in H. now rewrite H.
  - pose proof (H 0) as H0. simpl in H0. rewrite Z.add_0_r in H0. rewrite H0. cbn [run]. unfold has_hash.
    destruct (str_nth x col) as [c|]; [|reflexivity]. destruct (Ascii.eqb c hash_c); [|reflexivity].
    rewrite (IH fuel (i + step)%Z); [reflexivity| |simpl in L; lia].
    intros k. specialize (H (S k)). simpl nth_error in H. rewrite <- H. f_equal. lia.
Qed.

Lemma py_nth_pos {A} (l : list A) k : py_nth l (Z.of_nat k) = nth_error l k.
Proof.
  unfold py_nth, py_index. destruct (Z.leb_spec 0 (Z.of_nat k)); [|lia]. rewrite Nat2Z.id.
  destruct (Nat.ltb k (List.length l)) eqn:E; [reflexivity|]. apply Nat.ltb_ge in E. symmetry. now apply nth_error_None.
Qed.
Lemma nth_error_rev {A} (l : list A) k : k < List.length l -> nth_error (rev l) k = nth_error l (List.length l - S k).
Proof.
  revert k; induction l as [|x l IH] using rev_ind; intros k; simpl; intros H; [lia|].
  rewrite app_length in *. simpl in *. rewrite rev_app_distr. simpl. destruct k as [|k]; simpl.
  - rewrite nth_error_app2 by lia. replace (List.length l + 1 - 1 - List.length l) with 0 by lia. reflexivity.
  - rewrite IH by lia. rewrite nth_error_app1 by lia. f_equal. lia.
Qed.
Lemma py_nth_neg {A} (l : list A) k : py_nth l (- Z.of_nat (S k)) = nth_error (rev l) k.
Proof.
  unfold py_nth, py_index. destruct (Z.leb_spec 0 (- Z.of_nat (S k))); [lia|].
  destruct (Z.leb_spec 0 (Z.of_nat (List.length l) + - Z.of_nat (S k))) as [H1|H1].
  - rewrite nth_error_rev by lia. f_equal. lia.
  - symmetry. apply nth_error_None. rewrite rev_length. lia.
Qed.

Lemma below_visited (lines : list string) idx k :
  py_nth lines (Z.of_nat idx + 1 + Z.of_nat k * 1) = nth_error (skipn (S idx) lines) k.
Proof.
  replace (Z.of_nat idx + 1 + Z.of_nat k * 1)%Z with (Z.of_nat (S idx + k)) by lia. rewrite py_nth_pos.
  revert k. generalize (S idx). clear idx. induction lines as [|x l IH]; intros n k.
  - rewrite skipn_nil. destruct (n + k), k; reflexivity.
  - destruct n as [|n]; simpl; [reflexivity|]. apply IH.
Qed.
Lemma above_visited (lines : list string) idx k : idx <= List.length lines ->
  py_nth lines (Z.of_nat idx + -1 + Z.of_nat k * -1) = nth_error (rev (firstn idx lines) ++ rev lines)%list k.
Proof.
  intros L. assert (F : List.length (rev (firstn idx lines)) = idx) by (rewrite rev_length, firstn_length; lia).
  destruct (Nat.lt_ge_cases k idx) as [H|H].
  - replace (Z.of_nat idx + -1 + Z.of_nat k * -1)%Z with (Z.of_nat (idx - S k)) by lia. rewrite py_nth_pos.
    rewrite nth_error_app1 by lia. rewrite nth_error_rev by (rewrite rev_length in F; lia).
    rewrite rev_length in F. rewrite F. rewrite <- (firstn_skipn idx lines) at 1. rewrite nth_error_app1 by lia. reflexivity.
  - replace (Z.of_nat idx + -1 + Z.of_nat k * -1)%Z with (- Z.of_nat (S (k - idx)))%Z by lia. rewrite py_nth_neg.
    rewrite nth_error_app2 by lia. now rewrite F.
Qed.

Lemma run_split col l : exists post, l = (run col l ++ post)%list /\
  Forall (fun x => has_hash col x = true) (run col l) /\
  (post = [] \/ exists x post', post = x :: post' /\ has_hash col x = false).
Proof.
  induction l as [|x l IH]; simpl; [exists []; auto|]. destruct (has_hash col x) eqn:E.
  - destruct IH as (post & H1 & H2 & H3). exists post. split; [simpl; congruence|]. split; [constructor; auto|auto].
  - exists (x :: l). split; [auto|]. split; [constructor|]. right. eauto.
Qed.
Lemma run_app_stop col a b : (exists x, In x a /\ has_hash col x = false) -> run col (a ++ b)%list = run col a.
Proof.
  induction a as [|x a IH]; intros (y & Hy & H); [destruct Hy|]. simpl. destruct (has_hash col x) eqn:E; [|reflexivity].
  f_equal. apply IH. destruct Hy as [->|Hy]; [congruence|eauto].
Qed.

(** ** The column of the key *)
Lemma remove_char_split d t a c r : remove_char d t = a ++ String c r ->
  exists a2 r2, t = a2 ++ String c r2 /\ remove_char d a2 = a /\ c <> d.
Proof.
  revert a; induction t as [|x t IH]; intros a; simpl; [destruct a; discriminate|].
  destruct (Ascii.eqb d x) eqn:E.
  - intros H. destruct (IH _ H) as (a2 & r2 & -> & H1 & H2). exists (String x a2), r2. simpl. rewrite E. auto.
  - intros H. destruct a as [|y a]; simpl in H; injection H as H1 H2.
    + subst x. exists "", t. split; [auto|]. split; [auto|]. apply Ascii.eqb_neq in E. congruence.
    + subst y. destruct (IH _ H2) as (a2 & r2 & -> & H1 & H3). exists (String x a2), r2. simpl. rewrite E.
      split; [auto|]. split; [congruence|auto].
Qed.
Lemma remove_char_forall d p a : str_forall p (remove_char d a) = true ->
  str_forall (fun c => p c || Ascii.eqb d c) a = true.
Proof.
  induction a as [|x a IH]; simpl; [auto|]. destruct (Ascii.eqb d x); simpl.
  - rewrite orb_true_r. auto.
  - rewrite andb_true_iff. intros [H1 H2]. rewrite H1. simpl. auto.
Qed.
Lemma key_column_found line c r : strip (remove_char dash_c (strip line)) = String c r ->
  exists a b, line = a ++ String c b /\ find_str (String c "") line = Some (String.length a) /\
              key_column line (String.length a).
Proof.
  intros H. destruct (strip_by_head _ _ _ _ H) as (a & t & E & Ha & Hc).
  destruct (remove_char_split _ _ _ _ _ E) as (a2 & r2 & E2 & E3 & Hd). rewrite <- E3 in Ha.
  apply remove_char_forall in Ha.
  destruct (strip_by_spec is_space line) as (x & y & E4 & Hx & _). fold (strip line) in E4. rewrite E2 in E4.
  assert (El : line = (x ++ a2) ++ String c (r2 ++ y)) by (rewrite E4, !app_assoc_s; reflexivity).
  assert (Hxa : str_forall (fun c => is_space c || Ascii.eqb dash_c c) (x ++ a2) = true).
  { rewrite str_forall_app, Ha, andb_true_r. eapply str_forall_impl; [|exact Hx]. intros d ->. reflexivity. }
  exists (x ++ a2), (r2 ++ y). split; [exact El|]. split.
  - rewrite El. apply find_char_app. eapply str_forall_not; [exact Hxa|]. cbn beta. rewrite Hc. cbn [orb].
    apply Ascii.eqb_neq. congruence.
  - exists (x ++ a2), c, (r2 ++ y). split; [exact El|]. split; [reflexivity|]. split; [|split; [now apply not_white|]].
    + apply Forall_chars in Hxa. eapply Forall_impl; [|exact Hxa]. intros d Hd'. cbn beta in Hd'.
      apply orb_true_iff in Hd' as [Hd'|Hd']; [left; now apply is_space_white|right]. apply Ascii.eqb_eq in Hd'. now subst d.
    + intros K. apply Hd. apply (f_equal ascii_of_nat) in K. unfold code in K. now rewrite ascii_nat_embedding in K.
Qed.

Lemma key_column_unique line c1 c2 : key_column line c1 -> key_column line c2 -> c1 = c2.
Proof.
  intros (a & c & b & -> & <- & Ha & Hc & Hc') (a' & c' & b' & E & <- & Ha' & Hd & Hd').
  revert a' E Ha'. induction a as [|x a IH]; intros [|x' a'] E Ha'; simpl in *; auto.
  - injection E as -> E. inversion Ha' as [|? ? [?|?] ?]; contradiction.
  - injection E as -> E. inversion Ha as [|? ? [?|?] ?]; contradiction.
  - injection E as -> E. f_equal. inversion Ha; inversion Ha'; subst. eauto.
Qed.

(** ** Which lines *)
Definition docstring_of (texts : list string) : string := replace tq "" (replace sq3 "" (join_comments texts)).

Lemma forall2_texts col l : Forall (fun x => has_hash col x = true) l -> Forall2 (hash_at col) l (map (text_at col) l).
Proof. induction 1; simpl; constructor; auto. now apply has_hash_spec. Qed.

Definition has_colon (line : string) : Prop := exists i, find_unquoted colon_c line = Some (S i).
Lemma truthy_cases line : truthy_index (find_unquoted colon_c line) = None \/ has_colon line.
Proof. unfold has_colon. destruct (find_unquoted colon_c line) as [[|i]|]; simpl; eauto. Qed.

Lemma block_comment_total lines idx above : exists s, block_comment lines idx above = Val s.
Proof.
  unfold block_comment. destruct (nth_error lines idx) as [line|] eqn:N; [|eauto].
  destruct (truthy_index (find_unquoted colon_c line)) as [i|] eqn:T; [|eauto].
  destruct (strip (remove_char dash_c (strip line))) as [|c r] eqn:Es.
  - exfalso. apply truthy_Some in T.
    destruct (find_unquoted_aux_Some colon_c _ _ _ _ eq_refl T) as (a & b & E & _).
    apply strip_by_all in Es. apply remove_char_forall in Es.
    destruct (strip_by_spec is_space line) as (x & y & E2 & Hx & Hy). fold (strip line) in E2.
    assert (F : str_forall (fun c => is_space c || Ascii.eqb dash_c c) line = true).
    { rewrite E2, !str_forall_app, Es. rewrite !andb_true_iff. split; [|split; [auto|]].
      - eapply str_forall_impl; [|exact Hx]. intros d ->. reflexivity.
      - eapply str_forall_impl; [|exact Hy]. intros d ->. reflexivity. }
    rewrite E, str_forall_app in F. simpl in F. rewrite andb_false_r in F. discriminate.
  - cbv zeta. assert (L : idx < List.length lines) by (apply nth_error_Some; congruence).
    destruct above.
    + rewrite (block_lines_run lines _ (-1) (rev (firstn idx lines) ++ rev lines)%list).
      * destruct (map _ _); eauto.
      * intros k. apply above_visited. lia.
      * rewrite app_length, !rev_length, firstn_length. lia.
    + rewrite (block_lines_run lines _ 1 (skipn (S idx) lines)).
      * destruct (map _ _); eauto.
      * intros k. apply below_visited.
      * rewrite skipn_length. lia.
Qed.

Lemma block_comment_above lines idx line col s :
  nth_error lines idx = Some line -> has_colon line -> key_column line col ->
  block_comment lines idx true = Val s ->
  s = docstring_of (rev (map (text_at col) (run col (rev (firstn idx lines) ++ rev lines)%list))).
Proof.
  intros N (i & Hc) K. unfold block_comment. rewrite N, Hc. cbn [truthy_index].
  destruct (strip (remove_char dash_c (strip line))) as [|c r] eqn:Es; [discriminate|].
  destruct (key_column_found _ _ _ Es) as (a & b & E & F & K2). rewrite F. cbv zeta.
  rewrite (key_column_unique _ _ _ K2 K). clear a b E F K2.
  assert (L : idx < List.length lines) by (apply nth_error_Some; congruence).
  rewrite (block_lines_run lines _ (-1) (rev (firstn idx lines) ++ rev lines)%list).
  - destruct (map _ _) as [|x l]; intros H; injection H as <-; reflexivity.
  - intros k. apply above_visited. lia.
  - rewrite app_length, !rev_length, firstn_length. lia.
Qed.
Lemma block_comment_below lines idx line col s :
  nth_error lines idx = Some line -> has_colon line -> key_column line col ->
  block_comment lines idx false = Val s ->
  s = docstring_of (map (text_at col) (run col (skipn (S idx) lines))).
Proof.
  intros N (i & Hc) K. unfold block_comment. rewrite N, Hc. cbn [truthy_index].
  destruct (strip (remove_char dash_c (strip line))) as [|c r] eqn:Es; [discriminate|].
  destruct (key_column_found _ _ _ Es) as (a & b & E & F & K2). rewrite F. cbv zeta.
  rewrite (key_column_unique _ _ _ K2 K). clear a b E F K2.
  rewrite (block_lines_run lines _ 1 (skipn (S idx) lines)).
  - destruct (map _ _) as [|x l]; intros H; injection H as <-; reflexivity.
  - intros k. apply below_visited.
  - rewrite skipn_length. assert (L : idx < List.length lines) by (apply nth_error_Some; congruence). lia.
Qed.

Lemma below_block lines idx col :
  let r := run col (skipn (S idx) lines) in block_below lines idx col r (map (text_at col) r).
Proof.
  cbv zeta. destruct (run_split col (skipn (S idx) lines)) as (post & E & F & P). split; [now apply forall2_texts|].
  exists post. split; [auto|]. destruct P as [P|(x & p & P & H)]; [auto|]. right. exists p, x. split; [auto|].
  intros t. now apply has_hash_false.
Qed.
(** The scan upwards stays inside the file when a line above, or the last line, stops it. *)
Lemma above_block lines idx col :
  (exists l, In l (firstn idx lines) /\ forall t, ~ hash_at col l t) \/
  (forall l t, nth_error lines (List.length lines - 1) = Some l -> ~ hash_at col l t) ->
  let r := run col (rev (firstn idx lines) ++ rev lines)%list in
  block_above lines idx col (rev r) (rev (map (text_at col) r)).
Proof.
  intros H. cbv zeta.
  assert (E : run col (rev (firstn idx lines) ++ rev lines)%list = run col (rev (firstn idx lines))).
  { destruct H as [(l & Hl & N)|N].
    - apply run_app_stop. exists l. split; [now apply in_rev in Hl|]. apply not_true_iff_false. intros T.
      apply has_hash_spec in T. exact (N _ T).
    - destruct (rev lines) as [|x r] eqn:R; [now rewrite app_nil_r|].
      assert (Hx : has_hash col x = false).
      { apply not_true_iff_false. intros T. apply has_hash_spec in T. refine (N x _ _ T).
        assert (L : lines = (rev r ++ [x])%list) by (rewrite <- (rev_involutive lines), R; reflexivity).
        rewrite L, app_length. simpl. rewrite nth_error_app2 by lia.
        replace (List.length (rev r) + 1 - 1 - List.length (rev r)) with 0 by lia. reflexivity. }
      clear R. induction (rev (firstn idx lines)) as [|y l IH]; simpl; [now rewrite Hx|].
      destruct (has_hash col y); [|reflexivity]. now rewrite IH. }
  rewrite E. clear E H. destruct (run_split col (rev (firstn idx lines))) as (post & E & F & P).
  set (r := run col (rev (firstn idx lines))) in *. clearbody r. split.
  - rewrite <- map_rev. apply forall2_texts. apply Forall_rev. exact F.
  - exists (rev post). split.
    + rewrite <- rev_app_distr, <- E, rev_involutive. reflexivity.
    + destruct P as [->|(x & p & -> & Hx)]; [auto|]. right. exists (rev p), x. split; [reflexivity|].
      intros t. now apply has_hash_false.
Qed.
