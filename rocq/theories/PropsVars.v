(** C95: which lines [remove_all_instance_variables] removes. *)
From Coq Require Import Ascii String List Bool Arith ZArith Lia.
From Verif Require Import PyStr PyStrFacts Exc PyFile SpecNames SpecText SpecPyFile PyFileFacts SpecMethods SpecPrivate SpecVars PropsMethods PropsPrivate.
Import ListNotations.
Local Open Scope string_scope.
Local Open Scope nat_scope.

Lemma has_spec t l : contains t l = true <-> Has t l.
Proof. rewrite contains_spec. reflexivity. Qed.
Lemma has_not t l : contains t l = false <-> ~ Has t l.
Proof. rewrite <- has_spec. destruct (contains t l); split; intros H; congruence. Qed.
Lemma has_dec t l : Has t l \/ ~ Has t l.
Proof. destruct (contains t l) eqn:E; [left; now apply has_spec|right; now apply has_not]. Qed.

Lemma pop_at (a : list string) l b : pop (a ++ l :: b) (Z.of_nat (List.length a)) = Val (a ++ b)%list.
Proof.
  destruct (removed_pops [Z.of_nat (List.length a)] (a ++ l :: b)) as [H _]. specialize (H (a ++ b)%list). cbn [pops] in H.
  destruct (pop (a ++ l :: b) (Z.of_nat (List.length a))) as [x| |]; cbn [andthen] in H; apply H; (eapply removed_one; [left; reflexivity|constructor]).
Qed.

Lemma app_len_inj {A} (a b c d : list A) : (a ++ b = c ++ d)%list -> List.length a = List.length c -> a = c /\ b = d.
Proof. revert c. induction a as [|x a IH]; intros [|y c] E L; cbn in *; try discriminate; auto. injection E as -> E. destruct (IH c E) as [-> ->]; auto. Qed.

(** Inside the lines [a]: from line [s] on, those without the mark in them or above them go. *)
Definition goes (s : nat) (a : list string) (k : nat) : Prop :=
  s <= k /\ exists x before l y, a = (x ++ before :: l :: y)%list /\ k = S (List.length x) /\ ~ Has "classes_created" before /\ ~ Has "classes_created" l.

Lemma goes_front s a l k : k < List.length a -> goes s (a ++ [l]) k <-> goes s a k.
Proof.
  intros L. split; intros (Hs & x & before & m & y & E & -> & N1 & N2); (split; [exact Hs|]).
  - destruct (@exists_last _ (before :: m :: y)) as (u & v & Eu); [discriminate|]. rewrite Eu in E. rewrite app_assoc in E. apply app_inj_tail in E as [-> ->].
    destruct u as [|u1 [|u2 u]]; cbn [app] in Eu; [discriminate| |].
    + exfalso. rewrite app_length in L. cbn in L. lia.
    + injection Eu as -> -> _. exists x, u1, u2, u. auto.
  - exists x, before, m, (y ++ [l])%list. split; [|auto]. rewrite E, <- !app_assoc. reflexivity.
Qed.

Lemma pop_range_kept s : 0 < s -> forall n a b, List.length a = s + n ->
  exists out, pop_range (rev (seq s n)) (a ++ b) = Val (out ++ b)%list /\ Kept (fun k => ~ goes s a k) 0 a out.
Proof.
  intros Hs n. induction n as [|n IH]; intros a b L.
  - exists a. split; [reflexivity|]. assert (G : forall c i, i + List.length c <= s -> Kept (fun k => ~ goes s a k) i c c).
    { induction c as [|x c IHc]; intros i Hi; [constructor|]. cbn [List.length] in Hi. apply kept_hit; [intros (H & _); lia|]. apply IHc. lia. }
    apply G. lia.
  - rewrite seq_S, rev_app_distr. cbn [rev app pop_range].
    destruct (@exists_last _ a) as (a' & l & ->). { intros ->. cbn in L. lia. }
    rewrite app_length in L. cbn [List.length] in L. assert (L' : List.length a' = s + n) by lia. rewrite <- L'.
    destruct (@exists_last _ a') as (a'' & before & Ea). { intros ->. cbn in L'. lia. }
    rewrite <- app_assoc. cbn [app]. rewrite line_at_nat. cbn [andthen].
    assert (Lb : line_at (a' ++ l :: b) (Z.of_nat (List.length a') - 1) = Val before).
    { rewrite Ea. rewrite <- app_assoc. cbn [app]. rewrite app_length. cbn [List.length].
      replace (Z.of_nat (List.length a'' + 1) - 1)%Z with (Z.of_nat (List.length a'')) by lia. apply line_at_nat. }
    assert (Mid : forall (keep : bool), (if keep then ~ goes s (a' ++ [l]) (List.length a') else goes s (a' ++ [l]) (List.length a')) -> forall out, Kept (fun k => ~ goes s a' k) 0 a' out ->
       Kept (fun k => ~ goes s (a' ++ [l]) k) 0 (a' ++ [l]) (out ++ (if keep then [l] else []))).
    { intros keep Hk out K. apply kept_app.
      - eapply kept_ext; [|exact K]. cbv beta. intros k Hk'. rewrite goes_front by lia. reflexivity.
      - cbn [Nat.add]. destruct keep; [apply kept_hit; [exact Hk|constructor]|apply kept_miss; [intros H; now apply H|constructor]]. }
    assert (Iff : goes s (a' ++ [l]) (List.length a') <-> ~ Has "classes_created" before /\ ~ Has "classes_created" l).
    { split.
      - intros (_ & x & p & m & y & E & Ek & N1 & N2). rewrite Ea in E, Ek. rewrite <- app_assoc in E. cbn [app] in E. rewrite app_length in Ek. cbn [List.length] in Ek.
        assert (List.length x = List.length a'') by lia. destruct (app_len_inj _ _ _ _ E) as [_ E']; [lia|]. injection E' as -> -> _. auto.
      - intros [N1 N2]. split; [lia|]. exists a'', before, l, []. rewrite Ea, <- app_assoc, app_length. cbn. split; [reflexivity|]. split; [lia|auto]. }
    destruct (contains "classes_created" l) eqn:C1; cbn [andthen]; [|rewrite Lb; cbn [andthen]; destruct (contains "classes_created" before) eqn:C2]; rewrite ?C1, ?C2.
    + destruct (IH a' (l :: b) L') as (out & E & K). exists (out ++ [l])%list. split; [rewrite E, <- app_assoc; reflexivity|].
      apply (Mid true); auto. rewrite Iff. intros [_ N]. apply N. now apply has_spec.
    + destruct (IH a' (l :: b) L') as (out & E & K). exists (out ++ [l])%list. split; [rewrite E, <- app_assoc; reflexivity|].
      apply (Mid true); auto. rewrite Iff. intros [N _]. apply N. now apply has_spec.
    + rewrite pop_at. cbn [andthen]. destruct (IH a' b L') as (out & E & K). exists out. split; [exact E|].
      replace out with (out ++ [])%list by apply app_nil_r. apply (Mid false); auto. apply Iff. split; now apply has_not.
Qed.

Lemma search_first t lines : (forall l, In l lines -> ~ Has t l) /\ search_line t lines = Raise ValueError \/ exists up, FirstHas t lines up /\ search_line t lines = Val up.
Proof.
  destruct (search_line_spec t lines 0) as [(a & l & b & -> & C & Ha & E)|[F E]].
  - right. exists (List.length a). split; [|exact E]. exists a, l, b. split; [reflexivity|]. split; [reflexivity|]. split; [now apply has_spec|].
    eapply Forall_impl; [|exact Ha]. cbv beta. intros x. apply has_not.
  - left. split; [|exact E]. rewrite Forall_forall in F. intros l Hl. apply has_not. auto.
Qed.
Lemma first_unique t lines i j : FirstHas t lines i -> FirstHas t lines j -> i = j.
Proof.
  intros (a & l & b & -> & <- & H & F) (a' & l' & b' & E & <- & H' & F'). revert a' F' E. induction F as [|x a N F IH]; intros [|y a'] F' E; auto; cbn [app] in E; injection E as E1 E2; subst.
  - inversion F'; subst. contradiction.
  - contradiction.
  - inversion F'; subst. cbn [List.length]. f_equal. eapply IH; eauto.
Qed.
Lemma proper_init : proper "__init__".
Proof. exists "__init_", "_"%char. split; [reflexivity|]. intros W. vm_compute in W. lia. Qed.

Theorem C95_all_files : forall class_name lines,
  exists places, Positions (DefLine "__init__") 0 lines places /\
    ((forall l, In l lines -> ~ Has ("class " ++ class_name ++ "(") l) -> remove_all_instance_variables class_name lines = Raise ValueError) /\
    (forall up, FirstHas ("class " ++ class_name ++ "(") lines up ->
       (places = [] \/ (forall l, In l lines -> has_at l) -> remove_all_instance_variables class_name lines = Raise IndexError) /\
       (forall before p t, places = (before ++ [p])%list -> Top lines (Z.of_nat p) t ->
          exists out, remove_all_instance_variables class_name lines = Val out /\ Kept (fun k => ~ VarLine "classes_created" lines up t k) 0 lines out)).
Proof.
  intros cn lines. destruct (C93_methods "__init__" lines proper_init) as (places & Hp & _ & T & Bad). exists places. split; [exact Hp|].
  pose proof (positions_bound _ _ _ _ Hp) as B. cbn [Nat.add] in B. unfold remove_all_instance_variables.
  destruct (search_first ("class " ++ cn ++ "(") lines) as [[N E]|(up & F & E)]; rewrite E; cbn [andthen].
  - split; [reflexivity|]. intros up (a & l & b & -> & _ & H & _). exfalso. apply (N l); [apply in_or_app; right; now left|exact H].
  - split. { intros N. exfalso. destruct F as (a & l & b & -> & _ & H & _). apply (N l); [apply in_or_app; right; now left|exact H]. }
    intros up' F'. rewrite (first_unique _ _ _ _ F' F). clear F' up'. split.
    + intros [-> |All].
      * assert (X : search_method true "__init__" lines = Val []).
        { destruct (search_places "__init__" lines lines proper_init 0) as (qs & Hq & _ & E2). unfold search_method. rewrite E2, <- (positions_unique _ _ _ _ Hp _ Hq). reflexivity. }
        rewrite X. reflexivity.
      * destruct places as [|p ps].
        -- assert (X : search_method true "__init__" lines = Val []).
           { destruct (search_places "__init__" lines lines proper_init 0) as (qs & Hq & _ & E2). unfold search_method. rewrite E2, <- (positions_unique _ _ _ _ Hp _ Hq). reflexivity. }
           rewrite X. reflexivity.
        -- rewrite Bad; auto. discriminate.
    + intros before p t -> Tp.
      assert (Ex : exists l, In l lines /\ ~ has_at l). { destruct Tp as (_ & _ & l & (a & b & -> & _) & N). exists l. split; auto. apply in_or_app. right. now left. }
      destruct (T Ex) as (tops & -> & F2). cbn [andthen]. apply Forall2_app_inv_l in F2 as (t1 & t2 & _ & F2 & ->). inversion F2 as [|? q ? r Hq Hr]; subst. inversion Hr; subst.
      rewrite (C93_top_unique _ _ _ _ Hq Tp). unfold last_of. rewrite rev_unit. cbn [andthen].
      assert (Lp : p < List.length lines). { apply Forall_app in B as [_ B]. inversion B; subst. lia. }
      assert (Lt : (t <= Z.of_nat p)%Z) by apply Tp.
      set (n := Z.to_nat t - S up). destruct (Nat.le_gt_cases (S up) (Z.to_nat t)) as [Le|Gt].
      * assert (Sp : exists a b, lines = (a ++ b)%list /\ List.length a = S up + n).
        { exists (firstn (S up + n) lines), (skipn (S up + n) lines). split; [symmetry; apply firstn_skipn|]. apply firstn_length_le. unfold n. lia. }
        destruct Sp as (a & b & El & La). rewrite El. destruct (pop_range_kept (S up) (Nat.lt_0_succ _) n a b La) as (out & -> & K). eexists. split; [reflexivity|].
        apply kept_app.
        -- eapply kept_ext; [|exact K]. cbv beta. intros k Hk. cbn [Nat.add] in Hk. assert (La' : List.length a = Z.to_nat t) by (unfold n in La; lia).
           split; intros N H; apply N; clear N.
           ++ destruct H as (H1 & H2 & x & p0 & l & y & Ey & -> & N1 & N2). split; [lia|].
              exists x, p0, l, (firstn (List.length a - S (S (List.length x))) y). split; [|auto].
              assert (Ea : a = firstn (List.length a) (a ++ b)) by (rewrite firstn_app, Nat.sub_diag, firstn_all; cbn [firstn]; now rewrite app_nil_r).
              rewrite Ea at 1. rewrite Ey, firstn_app. rewrite (firstn_all2 x) by lia. f_equal.
              replace (List.length a - List.length x) with (S (S (List.length a - S (S (List.length x))))) by lia. reflexivity.
           ++ destruct H as (H1 & x & p0 & l & y & -> & -> & N1 & N2). split; [lia|]. split; [lia|]. exists x, p0, l, (y ++ b)%list. rewrite <- app_assoc. cbn [app]. auto.
        -- assert (G : forall c i, List.length a <= i -> Kept (fun k => ~ VarLine "classes_created" (a ++ b) up t k) i c c).
           { induction c as [|x c IHc]; intros i Hi; [constructor|]. apply kept_hit; [intros (_ & H & _); unfold n in La; lia|]. apply IHc. lia. }
           apply G. cbn [Nat.add]. lia.
      * assert (n = 0) as -> by (unfold n; lia). exists lines. split; [reflexivity|].
        assert (G : forall c i, Kept (fun k => ~ VarLine "classes_created" lines up t k) i c c).
        { induction c as [|x c IHc]; intros i; [constructor|]. apply kept_hit; [intros (H1 & H2 & _); lia|]. apply IHc. }
        apply G.
Qed.
Print Assumptions C95_all_files.

(** The result is determined by what is kept. *)
Theorem C95_determined : forall P i lines out out', Kept P i lines out -> Kept P i lines out' -> out = out'.
Proof.
  intros P i lines out out' K. revert out'. induction K as [|i l ls out H K IH|i l ls out H K IH]; intros out' K'; inversion K'; subst; auto; try contradiction. f_equal. auto.
Qed.
Print Assumptions C95_determined.

(** "Only variables are removed" is false: the last [__init__] of the file need not be that of the class. *)
Theorem C95_other_class_refuted : exists lines,
  remove_all_instance_variables "A" lines = Val ["class A(B):"; "    def __init__(self): ..."] /\
  lines = ["class A(B):"; "    def run(self): ..."; "class C:"; "    def __init__(self): ..."].
Proof. eexists. split; [|reflexivity]. vm_compute. reflexivity. Qed.
Print Assumptions C95_other_class_refuted.

Example C95_example :
  remove_all_instance_variables "Live" ["import a"; "class Live(B):"; "    classes_created: Any"; "    ""text"""; "    x: int"; "    y: str"; "    @overload"; "    def __init__(self): ..."; "    z: int"] =
    Val ["import a"; "class Live(B):"; "    classes_created: Any"; "    ""text"""; "    @overload"; "    def __init__(self): ..."; "    z: int"] /\
  FirstHas ("class " ++ "Live" ++ "(") ["import a"; "class Live(B):"; "    classes_created: Any"; "    ""text"""; "    x: int"; "    y: str"; "    @overload"; "    def __init__(self): ..."; "    z: int"] 1 /\
  Positions (DefLine "__init__") 0 ["import a"; "class Live(B):"; "    classes_created: Any"; "    ""text"""; "    x: int"; "    y: str"; "    @overload"; "    def __init__(self): ..."; "    z: int"] ([] ++ [7]) /\
  Top ["import a"; "class Live(B):"; "    classes_created: Any"; "    ""text"""; "    x: int"; "    y: str"; "    @overload"; "    def __init__(self): ..."; "    z: int"] (Z.of_nat 7) 6 /\
  VarLine "classes_created" ["import a"; "class Live(B):"; "    classes_created: Any"; "    ""text"""; "    x: int"; "    y: str"; "    @overload"; "    def __init__(self): ..."; "    z: int"] 1 6 4.
Proof.
  split; [vm_compute; reflexivity|]. split.
  { exists ["import a"], "class Live(B):". eexists. split; [reflexivity|]. split; [reflexivity|]. split; [exists "", "B):"; reflexivity|]. constructor; [|constructor]. apply has_not. reflexivity. }
  split.
  { set (lines := ["import a"; "class Live(B):"; "    classes_created: Any"; "    ""text"""; "    x: int"; "    y: str"; "    @overload"; "    def __init__(self): ..."; "    z: int"]).
    destruct (C93_methods "__init__" lines proper_init) as (places & Hp & E & _). assert (X : search_method false "__init__" lines = Val [7%Z]) by (vm_compute; reflexivity).
    rewrite X in E. injection E as E. destruct places as [|q [|r places]]; try discriminate. cbn [map] in E. injection E as E. replace q with 7 in Hp by lia. exact Hp. }
  split.
  { split; [lia|]. split.
    - intros m Hm. exists "    @overload". split; [|apply contains_at; reflexivity]. apply at_nth. replace m with 6%Z by lia. reflexivity.
    - exists "    y: str". split; [apply at_nth; reflexivity|]. intros H. apply contains_at in H. discriminate. }
  split; [lia|]. split; [lia|]. exists ["import a"; "class Live(B):"; "    classes_created: Any"], "    ""text""", "    x: int". eexists.
  split; [reflexivity|]. split; [reflexivity|]. split; apply has_not; reflexivity.
Qed.
