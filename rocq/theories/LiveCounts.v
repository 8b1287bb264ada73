(** How often the lines of a class occur in a stub. *)
From Coq Require Import Ascii String List Bool Arith ZArith Lia Permutation.
From Verif Require Import PyStr PyStrFacts Utils NamesFacts Exc SpecNames SpecText
  YamlLines YamlEntries PyFile PyFileFacts Live SpecLive LiveText LiveMethods LiveBlocks LiveFacts.
Import ListNotations.
Local Open Scope string_scope.
Local Open Scope nat_scope.

Notation count := (count_occ string_dec).

Lemma count_none x ls : Forall (fun l => l <> x) ls -> count ls x = 0.
Proof. intros H. apply count_occ_not_In. intros Hin. rewrite Forall_forall in H. now apply (H x). Qed.
Lemma count_app a b x : count (a ++ b)%list x = count a x + count b x.
Proof. induction a as [|y a IH]; [reflexivity|]. cbn [app count_occ]. destruct (string_dec y x); [cbn; now rewrite IH | exact IH]. Qed.
Lemma count_map_inj (f : string -> string) cs c : (forall x, In x cs -> f x = f c -> x = c) -> count (map f cs) (f c) = count cs c.
Proof.
  induction cs as [|x cs IH]; intros H; [reflexivity|]. cbn [map count_occ].
  destruct (string_dec (f x) (f c)) as [E|E], (string_dec x c) as [E2|E2].
  - f_equal. apply IH. intros y Hy. apply H. now right.
  - exfalso. apply E2, H; [now left | exact E].
  - congruence.
  - apply IH. intros y Hy. apply H. now right.
Qed.
Lemma count_perm a b x : Permutation a b -> count a x = count b x.
Proof. intros P. now apply (Permutation_count_occ string_dec). Qed.
Lemma count_nodup cs c : NoDup cs -> In c cs -> count cs c = 1.
Proof. intros N H. exact (proj1 (NoDup_count_occ' string_dec cs) N c H). Qed.

(** Words end at the first character that is not one of theirs. *)
Lemma word_end q a b x y : no_char q a -> no_char q b -> a ++ String q x = b ++ String q y -> a = b /\ x = y.
Proof.
  revert b. induction a as [|c a IH]; intros [|d b] Ha Hb E; cbn [append] in E.
  - injection E as ->. auto.
  - injection E as -> E. apply no_char_chars in Hb. exfalso. apply Hb. now left.
  - injection E as -> E. apply no_char_chars in Ha. exfalso. apply Ha. now left.
  - injection E as -> E. change (String d a) with (String d "" ++ a) in Ha. change (String d b) with (String d "" ++ b) in Hb.
    apply no_char_app in Ha as [_ Ha]. apply no_char_app in Hb as [_ Hb]. destruct (IH b Ha Hb E) as [-> ->]. auto.
Qed.
Lemma app_cancel (a x y : string) : a ++ x = a ++ y -> x = y.
Proof. induction a as [|c a IH]; cbn [append]; intros E; [exact E|]. injection E. exact IH. Qed.

Lemma import_line_inj c d : is_compatible c = true -> is_compatible d = true -> import_line c = import_line d -> c = d.
Proof.
  intros Hc Hd E. unfold import_line in E. apply app_cancel in E.
  change (" import " ++ c) with (String " " ("import " ++ c)) in E. change (" import " ++ d) with (String " " ("import " ++ d)) in E.
  eapply word_end in E; [apply E | now apply name_no | now apply name_no].
Qed.
Lemma overload_def_inj n m c d : is_compatible c = true -> is_compatible d = true -> overload_def n m c = overload_def n m d -> c = d.
Proof.
  intros Hc Hd E. unfold overload_def, def_line, literal in E. rewrite !app_assoc_s in E. do 5 apply app_cancel in E.
  change ("""]" ++ m_args2 m ++ "-> " ++ c ++ ":" ++ m_end m) with (String dquote_char ("]" ++ m_args2 m ++ "-> " ++ c ++ ":" ++ m_end m)) in E.
  change ("""]" ++ m_args2 m ++ "-> " ++ d ++ ":" ++ m_end m) with (String dquote_char ("]" ++ m_args2 m ++ "-> " ++ d ++ ":" ++ m_end m)) in E.
  eapply word_end in E; [apply E | now apply name_no | now apply name_no].
Qed.
Lemma plain_not_overload n m c : plain_def n m <> overload_def n m c.
Proof. intros E. unfold plain_def, overload_def, def_line, literal in E. rewrite !app_assoc_s in E. do 4 apply app_cancel in E. discriminate. Qed.

Section Counts.
  Variable t : template.
  Hypothesis Ht : well_formed t = true.

  Lemma part_count n m cs ls c : MethodPart n m cs ls -> names_ok cs -> is_compatible c = true -> method_name n -> good_method n m = true ->
    count ls (overload_def n m c) = count cs c.
  Proof.
    intros (cs' & over & k & HP & HO & _ & ->) HC Hc Hn Hg. rewrite (count_perm _ _ c HP).
    assert (HC' : names_ok cs') by (eapply Permutation_Forall; eassumption). clear HP HC.
    assert (D : defines n (overload_def n m c) = Val true) by (unfold overload_def; rewrite defines_def by assumption; now rewrite String.eqb_refl).
    assert (A1 : overload_line <> overload_def n m c) by (intros E; rewrite <- E, defines_overload in D; discriminate).
    assert (A2 : override_line <> overload_def n m c) by (intros E; rewrite <- E, defines_override in D; discriminate).
    rewrite !count_app. rewrite (count_none _ (repeat overload_line k)) by (now apply Forall_repeat).
    rewrite (count_none _ [override_line; plain_def n m]) by (constructor; [exact A2 | constructor; [apply plain_not_overload | constructor]]).
    rewrite !Nat.add_0_r. induction HO as [|j x cs' ls H IH]; [reflexivity|]. inversion HC'; subst. rewrite count_app.
    rewrite (count_none _ (repeat overload_line (S j))) by (now apply Forall_repeat). cbn [Nat.add count_occ].
    destruct (string_dec override_line (overload_def n m c)); [congruence|]. rewrite IH by assumption.
    destruct (string_dec (overload_def n m x) (overload_def n m c)) as [E|E], (string_dec x c) as [E2|E2]; try congruence.
    apply overload_def_inj in E; congruence.
  Qed.

  Lemma defines_count n m c ls : method_name n -> good_method n m = true -> Forall (fun l => defines n l = Val false) ls -> count ls (overload_def n m c) = 0.
  Proof.
    intros Hn Hg H. apply count_none. eapply Forall_impl; [|exact H]. intros l Hl E. cbv beta in Hl. rewrite E in Hl. unfold overload_def in Hl.
    rewrite defines_def in Hl by assumption. rewrite String.eqb_refl in Hl. discriminate.
  Qed.

  Lemma part_other n m n' cs ls : MethodPart n m cs ls -> names_ok cs -> method_name n -> good_method n m = true -> method_name n' -> n' <> n ->
    Forall (fun l => defines n' l = Val false) ls.
  Proof. intros H HC Hn Hg Hn' Hd. apply (Block_other n m Hn Hg n' cs ls); auto. now apply Block_of_part. Qed.

  (** Each line of a class occurs as often as the class is listed. *)
  Theorem Stub_counts imports cs ys ds ls c : Stub t imports cs ys ds ls ->
    names_ok imports -> names_ok cs -> names_ok ys -> names_ok ds -> is_compatible c = true ->
    In (registry t cs) ls /\
    count ls (import_line c) = count imports c /\
    count ls (overload_def "from_yaml_file" (t_yaml t) c) = count ys c /\
    count ls (overload_def "from_data" (t_data t) c) = count ds c.
  Proof.
    intros (py & pd & tail & PY & PD & (e & E & He) & ->) HI HC HY HD Hc.
    destruct (wf_parts t Ht) as (W1 & W2 & W3 & W4 & _ & _ & I & _ & GY & GD). rewrite E in W4. apply Forall_app in W4 as [W4 _].
    assert (ND : forall n, method_name n -> Forall (fun l => defines n l = Val false) (map import_line imports) /\ Forall (fun l => defines n l = Val false) (t_head t) /\
      Forall (fun l => defines n l = Val false) [registry t cs] /\ Forall (fun l => defines n l = Val false) (t_mid1 t) /\
      Forall (fun l => defines n l = Val false) (t_mid2 t) /\ Forall (fun l => defines n l = Val false) tail).
    { intros n Hn. assert (N : forall l, neutral l = true -> defines n l = Val false) by (intros l Hl; now apply neutral_parts).
      split; [apply imports_all; [|exact HI]; intros x Hx; now apply import_line_parts|].
      split; [eapply all_neutral; eauto|]. split; [constructor; [now apply registry_defines | constructor]|].
      split; [eapply all_neutral; eauto|]. split; eapply all_neutral; eauto. }
    split; [rewrite !in_app_iff; right; right; left; now left|].
    split; [|split].
    - assert (NI : forall l, neutral l = true -> l <> import_line c).
      { intros l Hl ->. unfold neutral in Hl. rewrite !andb_true_iff, !negb_true_iff in Hl. destruct Hl as [_ Hl].
        unfold import_line in Hl. rewrite startswith_app in Hl. discriminate. }
      assert (SP : forall x r, String " " x <> import_line r) by (intros; discriminate).
      assert (PN : forall n m cs' p, MethodPart n m cs' p -> Forall (fun l => l <> import_line c) p).
      { intros n m cs' p (cs2 & over & k & _ & HO & _ & ->). rewrite !Forall_app. split; [|split; [apply Forall_repeat; apply SP | repeat constructor; apply SP]].
        induction HO; [constructor|]. rewrite Forall_app. split; [apply Forall_repeat; apply SP|]. constructor; [apply SP|]. constructor; [apply SP | exact IHHO]. }
      assert (R : registry t cs <> import_line c).
      { unfold registry. destruct (t_indent t) as [|x r] eqn:EI; [discriminate|]. cbn [str_forall] in I. apply andb_true_iff in I as [I _].
        apply Nat.eqb_eq in I. intros X. cbn [append] in X. unfold import_line in X. cbn [append] in X. injection X as -> _. discriminate. }
      rewrite !count_app. rewrite (count_none _ (t_head t)) by (eapply all_neutral; eauto). rewrite (count_none _ [registry t cs]) by (constructor; [exact R | constructor]).
      rewrite (count_none _ (t_mid1 t)), (count_none _ (t_mid2 t)), (count_none _ tail) by (eapply all_neutral; eauto).
      rewrite (count_none _ py), (count_none _ pd) by (eapply PN; eauto). rewrite !Nat.add_0_r.
      apply count_map_inj. intros x Hx Ex. rewrite Forall_forall in HI. apply import_line_inj; auto.
    - destruct (ND _ yaml_name) as (A1 & A2 & A3 & A4 & A5 & A6). rewrite !count_app.
      rewrite (defines_count _ _ _ _ yaml_name GY A1), (defines_count _ _ _ _ yaml_name GY A2), (defines_count _ _ _ _ yaml_name GY A3),
        (defines_count _ _ _ _ yaml_name GY A4), (defines_count _ _ _ _ yaml_name GY A5), (defines_count _ _ _ _ yaml_name GY A6).
      rewrite (defines_count _ _ _ pd yaml_name GY) by (eapply part_other; eauto using data_name, yaml_name; discriminate).
      rewrite (part_count _ _ ys) by (auto using yaml_name). lia.
    - destruct (ND _ data_name) as (A1 & A2 & A3 & A4 & A5 & A6). rewrite !count_app.
      rewrite (defines_count _ _ _ _ data_name GD A1), (defines_count _ _ _ _ data_name GD A2), (defines_count _ _ _ _ data_name GD A3),
        (defines_count _ _ _ _ data_name GD A4), (defines_count _ _ _ _ data_name GD A5), (defines_count _ _ _ _ data_name GD A6).
      rewrite (defines_count _ _ _ py data_name GD) by (eapply part_other; eauto using data_name, yaml_name; discriminate).
      rewrite (part_count _ _ ds) by (auto using data_name). lia.
  Qed.
End Counts.
