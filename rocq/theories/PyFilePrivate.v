(** Removal of private methods, and fuel of the loops of [PyFileModifier]. *)
From Coq Require Import Ascii String List Bool Arith ZArith Lia Permutation Sorted.
From Verif Require Import PyStr PyStrFacts Exc SpecNames SpecText SpecPyFile NamesFacts DocstringFacts
  YamlFacts YamlLines YamlEntries PyFile PyFileFacts.
Import ListNotations.
Local Open Scope string_scope.
Local Open Scope nat_scope.

(** ** Lines *)
Lemma contains_at l : contains "@" l = true <-> has_at l.
Proof. exact (contains_char_In (ascii_of_nat 64) l). Qed.
Lemma contains_at_false l : contains "@" l = false <-> ~ has_at l.
Proof. rewrite <- contains_at. destruct (contains "@" l); split; congruence. Qed.

Lemma closes_spec l : contains "):" l || contains "->" l = true <-> closes l.
Proof.
  rewrite orb_true_iff, !contains_spec. unfold closes. split.
  - intros [(a & b & E) | (a & b & E)]; exists a, b; auto.
  - intros (a & b & [E | E]); [left | right]; eauto.
Qed.
Lemma closes_false l : contains "):" l || contains "->" l = false <-> ~ closes l.
Proof. rewrite <- closes_spec. destruct (_ || _); split; congruence. Qed.

Lemma lstrip_blank a c r : blank a -> ~ white c -> lstrip (a ++ String c r) = String c r.
Proof.
  intros Ha Hc. unfold lstrip. apply blank_spec in Ha. induction a as [|x a IH]; cbn [append lstrip_by].
  - destruct (is_space c) eqn:E; [apply is_space_white in E; contradiction | reflexivity].
  - cbn [str_forall] in Ha. apply andb_true_iff in Ha as [-> Ha]. auto.
Qed.

Lemma rstrip_prefix p a c b : p c = false -> exists b', rstrip_by p (a ++ String c b) = a ++ String c b' /\ exists e, b = b' ++ e.
Proof.
  intros Hc. induction a as [|x a (b' & E & e & Ee)]; cbn [append].
  - destruct (rstrip_by_app p b) as (e & Eb & _).
    cbn [rstrip_by]. destruct (rstrip_by p b) as [|y b'] eqn:R.
    + rewrite Hc. exists "". split; eauto.
    + exists (String y b'). split; eauto.
  - exists b'. split; [|eauto]. cbn [rstrip_by]. rewrite E. destruct a; reflexivity.
Qed.

Lemma not_white_d : ~ white "d".
Proof. intros H. vm_compute in H. intuition discriminate. Qed.

Lemma is_private_spec l : is_private l = true <-> starts_private l.
Proof.
  unfold is_private, starts_private, PrivateDef. rewrite andb_true_iff, negb_true_iff. split.
  - intros [H1 H2]. apply startswith_spec in H1 as [r E].
    destruct (strip_by_spec is_space l) as (a & b & El & Ha & Hb). change (strip_by is_space l) with (strip l) in El.
    exists a, (r ++ b). rewrite El, E. repeat split.
    + now apply blank_spec.
    + intros r' Er. destruct r as [|c r].
      * cbn [append] in Er. rewrite Er in Hb. cbn in Hb. discriminate.
      * cbn [append] in Er. injection Er as -> _. rewrite E in H2.
        assert (startswith "def __" ("def _" ++ String "_" r) = true) by reflexivity. congruence.
  - intros (sp & r & -> & Hsp & Hr).
    assert (E : exists r', strip (sp ++ "def _" ++ r) = "def _" ++ r' /\ exists e, r = r' ++ e).
    { unfold strip, strip_by. change ("def _" ++ r) with (String "d" ("ef _" ++ r)).
      change (lstrip_by is_space) with lstrip. rewrite (lstrip_blank sp "d" ("ef _" ++ r) Hsp not_white_d).
      change (String "d" ("ef _" ++ r)) with ("def " ++ String "_" r).
      destruct (rstrip_prefix is_space "def " "_" r eq_refl) as (r' & -> & He). exists r'. auto. }
    destruct E as (r' & -> & e & ->). split; [apply startswith_app|].
    destruct (startswith "def __" ("def _" ++ r')) eqn:S2; [|reflexivity]. exfalso.
    apply startswith_spec in S2 as [z Ez]. change ("def __" ++ z) with ("def _" ++ ("_" ++ z)) in Ez.
    apply app_inj_l in Ez. subst r'. now apply (Hr (z ++ e)).
Qed.
Lemma is_private_false l : is_private l = false <-> ~ starts_private l.
Proof. rewrite <- is_private_spec. destruct (is_private l); split; congruence. Qed.

Lemma leading_spaces_def sp line : PrivateDef sp line -> leading_spaces line = String.length sp.
Proof.
  intros (r & -> & Hsp & _). apply blank_spec in Hsp. induction sp as [|c sp IH]; [reflexivity|].
  cbn [str_forall] in Hsp. apply andb_true_iff in Hsp as [Hc Hsp]. cbn [append leading_spaces String.length].
  rewrite Hc. f_equal. exact (IH Hsp).
Qed.

Lemma deeper_spec sp l : deeper (String.length sp) l = true <-> Deeper sp l.
Proof.
  unfold deeper, Deeper. split.
  - destruct (str_nth l (String.length sp)) as [c|] eqn:E; [|discriminate]. intros H.
    apply str_nth_Some in E as (a & b & -> & L). exists a, c, b. repeat split; auto. now apply is_space_white.
  - intros (a & c & b & -> & L & W). rewrite <- L, str_nth_app. now apply is_space_white.
Qed.

(** ** Indexes *)
Lemma line_at_last (l : list string) : l <> [] -> line_at l (-1) = Val (last l "").
Proof.
  intros H. destruct (exists_last H) as (a & x & ->). rewrite last_last. unfold line_at, py_nth, py_index.
  destruct (0 <=? -1)%Z eqn:E; [discriminate|]. rewrite app_length. cbn [List.length].
  destruct (0 <=? Z.of_nat (List.length a + 1) + -1)%Z eqn:E'; [|apply Z.leb_gt in E'; lia].
  replace (Z.to_nat (Z.of_nat (List.length a + 1) + -1)) with (List.length a) by lia.
  now rewrite nth_error_app2, Nat.sub_diag by lia.
Qed.

(** The line above position [List.length pre] is the last one of [pre], or of the file. *)
Definition line_above (pre all : list string) : string := last (match pre with [] => all | _ => pre end) "".

Lemma line_at_above pre rest all : all = (pre ++ rest)%list -> all <> [] ->
  line_at all (Z.of_nat (List.length pre) - 1) = Val (line_above pre all).
Proof.
  intros -> N. unfold line_above. destruct pre as [|p pre].
  - cbn [List.length app] in *. apply line_at_last in N. exact N.
  - assert (Np : p :: pre <> []) by discriminate. destruct (exists_last Np) as (a & x & E). rewrite E, last_last.
    rewrite app_length. cbn [List.length]. replace (Z.of_nat (List.length a + 1) - 1)%Z with (Z.of_nat (List.length a)) by lia.
    rewrite <- app_assoc. cbn [app]. apply line_at_nat.
Qed.

Lemma decorators_above_spec decs : forall pre rest all fuel,
  all = (pre ++ decs ++ rest)%list -> all <> [] -> ~ has_at (line_above pre all) -> Forall has_at decs ->
  List.length decs < fuel ->
  decorators_above fuel all (Z.of_nat (List.length pre + List.length decs) - 1) =
  Val (map Z.of_nat (rev (seq (List.length pre) (List.length decs)))).
Proof.
  induction decs as [|d decs IH] using rev_ind; intros pre rest all fuel E N Ha Hd Hf; (destruct fuel; [lia|]); cbn [decorators_above].
  - cbn [List.length]. rewrite Nat.add_0_r. rewrite (line_at_above pre rest all) by (auto; now rewrite E).
    cbn [andthen seq rev map]. apply contains_at_false in Ha. now rewrite Ha.
  - apply Forall_app in Hd as [Hd Hd1]. inversion Hd1 as [|? ? H1 _]. rewrite app_length in *. cbn [List.length] in *.
    replace (Z.of_nat (List.length pre + (List.length decs + 1)) - 1)%Z with (Z.of_nat (List.length (pre ++ decs))) by (rewrite app_length; lia).
    rewrite <- app_assoc in E. cbn [app] in E.
    assert (E' : all = ((pre ++ decs) ++ d :: rest)%list) by (now rewrite <- app_assoc).
    rewrite E' at 1. rewrite line_at_nat. cbn [andthen]. apply contains_at in H1. rewrite H1.
    rewrite app_length. rewrite (IH pre (d :: rest) all fuel) by (auto; lia). cbn [andthen].
    rewrite Nat.add_1_r, seq_S, rev_app_distr. reflexivity.
Qed.

Lemma rest_of_signature_spec first : forall pre last rest all fuel,
  all = (pre ++ first ++ last :: rest)%list -> Forall (fun l => ~ closes l) first -> closes last ->
  List.length first < fuel ->
  rest_of_signature fuel all (Z.of_nat (List.length pre)) =
  Val (map Z.of_nat (seq (S (List.length pre)) (List.length first)), Z.of_nat (List.length pre + List.length first)).
Proof.
  induction first as [|x first IH]; intros pre last rest all fuel E Hf Hl Hn; (destruct fuel; [cbn in Hn; lia|]); cbn [rest_of_signature].
  - cbn [app] in E. rewrite E at 1. rewrite line_at_nat. cbn [andthen]. apply closes_spec in Hl. rewrite Hl.
    cbn [List.length seq map]. now rewrite Nat.add_0_r.
  - cbn [app] in E. rewrite E at 1. rewrite line_at_nat. cbn [andthen]. inversion Hf as [|? ? Hx Hr]; subst x0 l.
    apply closes_false in Hx. rewrite Hx.
    replace (Z.of_nat (List.length pre) + 1)%Z with (Z.of_nat (List.length (pre ++ [x]))) by (rewrite app_length; cbn; lia).
    rewrite (IH (pre ++ [x])%list last rest all fuel); auto; [|now rewrite <- app_assoc | cbn in Hn; lia].
    cbn [andthen fst snd List.length seq map]. rewrite app_length. cbn [List.length]. do 3 f_equal; [f_equal; lia | | lia].
    f_equal. f_equal. lia.
Qed.

Lemma body_after_spec sp body : forall idx rest,
  Forall (Deeper sp) body -> (rest = [] \/ exists r, rest = "" :: r) ->
  body_after (String.length sp) idx (body ++ rest)%list =
  map Z.of_nat (seq idx (List.length body + match rest with [] => 0 | _ => 1 end)).
Proof.
  induction body as [|l body IH]; intros idx rest Hb Hr; cbn [app body_after List.length].
  - destruct Hr as [-> | (r & ->)]; [reflexivity|]. cbn [body_after].
    assert (deeper (String.length sp) "" = false) as -> by (unfold deeper; destruct (String.length sp); reflexivity). reflexivity.
  - inversion Hb as [|? ? Hl Hb']. apply deeper_spec in Hl. rewrite Hl. cbn [Nat.add seq map]. now rewrite IH.
Qed.

(** ** Popping *)
Lemma pops_app xs : forall ys l, pops (xs ++ ys)%list l = andthen (pops xs l) (pops ys).
Proof.
  induction xs as [|x xs IH]; intros ys l; cbn [app pops]; [reflexivity|].
  destruct (pop l x); cbn [andthen]; auto.
Qed.
Lemma pop_nat (a : list string) x b : pop (a ++ x :: b)%list (Z.of_nat (List.length a)) = Val (a ++ b)%list.
Proof.
  unfold pop. rewrite py_index_nat by (rewrite app_length; cbn; lia). f_equal.
  induction a; cbn; [reflexivity | now f_equal].
Qed.
Lemma pops_block b : forall pre post,
  pops (map Z.of_nat (rev (seq (List.length pre) (List.length b)))) (pre ++ b ++ post)%list = Val (pre ++ post)%list.
Proof.
  induction b as [|x b IH] using rev_ind; intros pre post; [reflexivity|].
  rewrite app_length. cbn [List.length]. rewrite Nat.add_1_r, seq_S, rev_app_distr. cbn [rev app map pops].
  replace (pre ++ (b ++ [x]) ++ post)%list with ((pre ++ b) ++ x :: post)%list by (now rewrite <- !app_assoc).
  replace (List.length pre + List.length b) with (List.length (pre ++ b)) by (now rewrite app_length).
  rewrite pop_nat. cbn [andthen]. rewrite <- app_assoc. apply IH.
Qed.

(** ** Sorting *)
Lemma insert_desc_perm x l : Permutation (x :: l) (insert_desc x l).
Proof.
  induction l as [|y l IH]; cbn [insert_desc]; [auto|]. destruct (y <=? x)%Z; [auto|].
  eapply perm_trans; [apply perm_swap|]. now constructor.
Qed.
Lemma sort_desc_perm l : Permutation l (sort_desc l).
Proof. induction l as [|x l IH]; [constructor|]. cbn. eapply perm_trans; [|apply insert_desc_perm]. now constructor. Qed.
Lemma insert_desc_sorted x l : StronglySorted Z.ge l -> StronglySorted Z.ge (insert_desc x l).
Proof.
  induction 1 as [|y l Hs IH Hy]; cbn [insert_desc]; [repeat constructor|]. destruct (Z.leb_spec y x).
  - constructor; [constructor; auto|]. constructor; [lia|]. eapply Forall_impl; [|exact Hy]. cbn; intros; lia.
  - constructor; [exact IH|]. assert (P := insert_desc_perm x l). eapply Permutation_Forall; [exact P|]. constructor; [lia | exact Hy].
Qed.
Lemma sort_desc_sorted l : StronglySorted Z.ge (sort_desc l).
Proof. induction l; [constructor | now apply insert_desc_sorted]. Qed.

Lemma desc_unique l1 : forall l2, StronglySorted Z.ge l1 -> StronglySorted Z.ge l2 -> Permutation l1 l2 -> l1 = l2.
Proof.
  induction l1 as [|x l1 IH]; intros l2 S1 S2 P; [now apply Permutation_nil in P|].
  destruct l2 as [|y l2]; [now apply Permutation_sym, Permutation_nil in P|].
  inversion S1 as [|? ? S1' F1]; inversion S2 as [|? ? S2' F2]; subst.
  assert (x = y).
  { rewrite Forall_forall in F1, F2. assert (Hx : In x (y :: l2)) by (eapply Permutation_in; [exact P | now left]).
    assert (Hy : In y (x :: l1)) by (eapply Permutation_in; [apply Permutation_sym, P | now left]).
    destruct Hx as [-> | Hx]; [reflexivity|]. destruct Hy as [-> | Hy]; [reflexivity|].
    specialize (F1 _ Hy). specialize (F2 _ Hx). lia. }
  subst y. f_equal. apply IH; auto. now apply Permutation_cons_inv in P.
Qed.

Lemma rev_sorted_ge (l : list nat) : StronglySorted lt l -> StronglySorted Z.ge (map Z.of_nat (rev l)).
Proof.
  induction 1 as [|x l Hs IH Hx]; [constructor|]. cbn [rev]. rewrite map_app. cbn [map].
  assert (G : forall a b, StronglySorted Z.ge a -> Forall (fun y => (y >= b)%Z) a -> StronglySorted Z.ge (a ++ [b])%list).
  { clear. induction a as [|y a IH]; intros b Hs Hf; cbn; [repeat constructor|].
    inversion Hs; subst. inversion Hf; subst. constructor; [auto|]. apply Forall_app. split; auto. }
  apply G; [exact IH|]. apply Forall_forall. intros y Hy. apply in_map_iff in Hy as (z & <- & Hz).
  apply in_rev in Hz. rewrite Forall_forall in Hx. specialize (Hx _ Hz). lia.
Qed.

Lemma sort_desc_of idxs rm : Permutation idxs (map Z.of_nat rm) -> StronglySorted lt rm -> sort_desc idxs = map Z.of_nat (rev rm).
Proof.
  intros P Hs. apply desc_unique; [apply sort_desc_sorted | now apply rev_sorted_ge|].
  eapply perm_trans; [apply Permutation_sym, sort_desc_perm|]. eapply perm_trans; [exact P|].
  apply Permutation_map, Permutation_rev.
Qed.

(** ** Layouts *)
Lemma private_lines_app x y all : forall idx, Forall (fun l => ~ starts_private l) x ->
  private_lines_from idx all (x ++ y)%list = private_lines_from (idx + List.length x) all y.
Proof.
  induction x as [|l x IH]; intros idx H; cbn [app List.length]; [now rewrite Nat.add_0_r|].
  inversion H as [|? ? Hl Hx]. cbn [private_lines_from]. apply is_private_false in Hl. rewrite Hl, IH by exact Hx.
  f_equal. lia.
Qed.

Lemma sorted_seq s n : StronglySorted lt (seq s n).
Proof.
  revert s. induction n; intros s; cbn; constructor; auto. apply Forall_forall. intros x Hx. apply in_seq in Hx. lia.
Qed.
Lemma sorted_app l1 : forall l2, StronglySorted lt l1 -> StronglySorted lt l2 ->
  (forall x y, In x l1 -> In y l2 -> x < y) -> StronglySorted lt (l1 ++ l2)%list.
Proof.
  induction l1 as [|x l1 IH]; intros l2 H1 H2 H; [exact H2|]. inversion H1; subst. cbn. constructor.
  - apply IH; auto. intros a b Ha Hb. apply H; [now right | exact Hb].
  - apply Forall_app. split; [assumption|]. apply Forall_forall. intros y Hy. apply H; [now left | exact Hy].
Qed.

(** One method at the place after [pre]: its lines, and the empty line below it, are marked. *)
Lemma method_marked pre m tail all :
  Method m -> all = (pre ++ m ++ tail)%list -> ~ has_at (line_above pre all) -> (tail = [] \/ exists r, tail = "" :: r) ->
  exists idxs, Permutation idxs (map Z.of_nat (seq (List.length pre) (List.length m + match tail with [] => 0 | _ => 1 end))) /\
    private_lines_from (List.length pre) all (m ++ tail)%list =
    andthen (private_lines_from (List.length pre + List.length m) all tail) (fun b => Val (idxs ++ b)%list).
Proof.
  intros HM. destruct HM as [decs sp def sig body Hd Hdef (first & lst & Esig & Hfirst & Hlast) Hsig Hbody]. intros Eall Hat Htail.
  assert (N : all <> []) by (rewrite Eall; destruct pre, decs; discriminate).
  assert (Hd1 : Forall has_at decs) by (eapply Forall_impl; [|exact Hd]; cbn; tauto).
  assert (Hd2 : Forall (fun l => ~ starts_private l) decs) by (eapply Forall_impl; [|exact Hd]; cbn; tauto).
  assert (Hb1 : Forall (Deeper sp) body) by (eapply Forall_impl; [|exact Hbody]; cbn; tauto).
  assert (Hb2 : Forall (fun l => ~ starts_private l) body) by (eapply Forall_impl; [|exact Hbody]; cbn; tauto).
  assert (Lsig : List.length sig = List.length first) by (apply (f_equal (@List.length string)) in Esig; rewrite app_length in Esig; cbn in Esig; lia).
  set (d := List.length (pre ++ decs)%list).
  assert (Ed : d = List.length pre + List.length decs) by (unfold d; now rewrite app_length).
  exists (map Z.of_nat (rev (seq (List.length pre) (List.length decs))) ++ [Z.of_nat d] ++
     map Z.of_nat (seq (S d) (List.length first)) ++
     map Z.of_nat (seq (S (d + List.length first)) (List.length body + match tail with [] => 0 | _ => 1 end)))%list.
  split.
  - set (e := match tail with [] => 0 | _ => 1 end). rewrite !app_length. cbn [List.length]. rewrite app_length.
    replace (List.length decs + S (List.length sig + List.length body) + e)
      with (List.length decs + (1 + (List.length first + (List.length body + e)))) by lia.
    rewrite (seq_app (List.length decs)), (seq_app 1), (seq_app (List.length first)), !map_app. rewrite Ed.
    cbn [seq map]. rewrite Nat.add_1_r.
    apply Permutation_app; [apply Permutation_map, Permutation_sym, Permutation_rev|]. apply Permutation_refl'. cbn [app].
    do 3 f_equal.
  - replace ((decs ++ def :: sig ++ body) ++ tail)%list with (decs ++ def :: (sig ++ body) ++ tail)%list by (rewrite <- (app_assoc decs); reflexivity).
    rewrite private_lines_app by exact Hd2. rewrite <- Ed. cbn [private_lines_from].
    assert (P : is_private def = true) by (apply is_private_spec; exists sp; exact Hdef). rewrite P.
    unfold lines_of_private.
    assert (E1 : all = (pre ++ decs ++ (def :: sig ++ body ++ tail))%list).
    { rewrite Eall. rewrite <- !app_assoc. cbn [app]. now rewrite <- app_assoc. }
    rewrite Ed at 2. rewrite (decorators_above_spec decs pre (def :: sig ++ body ++ tail)%list all) by (auto; lia). cbn [andthen].
    assert (E2 : all = ((pre ++ decs) ++ first ++ lst :: (body ++ tail))%list).
    { rewrite E1. rewrite <- app_assoc. do 2 f_equal. change (def :: sig ++ body ++ tail)%list with ((def :: sig) ++ body ++ tail)%list.
      rewrite Esig, <- app_assoc. reflexivity. }
    unfold d at 1. rewrite (rest_of_signature_spec first (pre ++ decs)%list lst (body ++ tail)%list all).
    2: exact E2. 2: exact Hfirst. 2: exact Hlast. 2: { rewrite E2, !app_length. lia. }
    fold d. cbn [andthen fst snd]. rewrite Nat2Z.id.
    assert (E3 : skipn (S (d + List.length first)) all = (body ++ tail)%list).
    { rewrite E2. replace ((pre ++ decs) ++ first ++ lst :: body ++ tail)%list with (((pre ++ decs) ++ first ++ [lst]) ++ body ++ tail)%list by (now rewrite <- !app_assoc).
      replace (S (d + List.length first)) with (List.length ((pre ++ decs) ++ first ++ [lst])%list) by (unfold d; rewrite !app_length; cbn; lia).
      rewrite skipn_app, skipn_all, Nat.sub_diag. reflexivity. }
    rewrite E3, (leading_spaces_def sp def Hdef), (body_after_spec sp body) by auto.
    rewrite (private_lines_app (sig ++ body) tail) by (apply Forall_app; auto).
    replace (S d + List.length (sig ++ body)) with (List.length pre + List.length (decs ++ def :: sig ++ body)) by (rewrite !app_length; cbn; rewrite app_length; lia).
    reflexivity.
Qed.

Lemma layout_removal p ls ks : Layout p ls ks -> forall pre all,
  all = (pre ++ ls)%list -> (p <-> has_at (line_above pre all)) ->
  exists idxs rm, private_lines_from (List.length pre) all ls = Val idxs /\ Permutation idxs (map Z.of_nat rm) /\
    StronglySorted lt rm /\ Forall (fun i => List.length pre <= i) rm /\
    pops (map Z.of_nat (rev rm)) all = Val (pre ++ ks)%list.
Proof.
  induction 1 as [p | p l ls ks Hl HL IH | p m ls ks Hp HM HL IH | p m Hp HM]; intros pre all E Hat.
  - exists [], []. cbn. rewrite E. repeat split; auto; constructor.
  - destruct (IH (pre ++ [l])%list all) as (idxs & rm & H1 & H2 & H3 & H4 & H5).
    { now rewrite <- app_assoc. }
    { unfold line_above. destruct (pre ++ [l])%list eqn:Q; [destruct pre; discriminate|]. rewrite <- Q, last_last. reflexivity. }
    rewrite app_length in *. cbn [List.length] in *. rewrite Nat.add_1_r in *.
    exists idxs, rm. cbn [private_lines_from]. apply is_private_false in Hl. rewrite Hl. repeat split; auto.
    + eapply Forall_impl; [|exact H4]. cbn; intros; lia.
    + rewrite <- app_assoc in H5. exact H5.
  - destruct (method_marked pre m ("" :: ls) all HM E) as (idxs & P & ->); [tauto | right; eauto |].
    destruct (IH (pre ++ m ++ [""])%list all) as (idxs' & rm & H1 & H2 & H3 & H4 & H5).
    { rewrite E, <- !app_assoc. reflexivity. }
    { unfold line_above. destruct (pre ++ m ++ [""])%list eqn:Q; [destruct pre, m; discriminate|]. rewrite <- Q, !app_assoc, last_last.
      split; [tauto|]. intros H. destruct H. }
    rewrite !app_length in *. cbn [List.length] in *.
    cbn [private_lines_from]. change (is_private "") with false. cbn iota.
    replace (S (List.length pre + List.length m)) with (List.length pre + (List.length m + 1)) by lia. rewrite H1. cbn [andthen].
    exists (idxs ++ idxs')%list, (seq (List.length pre) (List.length m + 1) ++ rm)%list. repeat split.
    + rewrite map_app. now apply Permutation_app.
    + apply sorted_app; [apply sorted_seq | exact H3|]. intros x y Hx Hy. apply in_seq in Hx. rewrite Forall_forall in H4. specialize (H4 _ Hy). lia.
    + apply Forall_app. split; [apply Forall_forall; intros x Hx; apply in_seq in Hx; lia|].
      eapply Forall_impl; [|exact H4]. cbn; intros; lia.
    + rewrite rev_app_distr, map_app, pops_app, H5. cbn [andthen].
      replace (List.length m + 1) with (List.length (m ++ [""])) by (rewrite app_length; reflexivity).
      rewrite <- app_assoc. apply pops_block.
  - rewrite <- (app_nil_r m) in E.
    destruct (method_marked pre m [] all HM E) as (idxs & P & Q); [tauto | now left |].
    cbn [private_lines_from andthen] in Q. rewrite !app_nil_r in Q. rewrite Nat.add_0_r in P.
    exists idxs, (seq (List.length pre) (List.length m)). repeat split; auto.
    + apply sorted_seq.
    + apply Forall_forall; intros x Hx; apply in_seq in Hx; lia.
    + rewrite E. apply pops_block.
Qed.

Lemma remove_private_layout lines ks : Layout (has_at (last lines "")) lines ks -> remove_all_private_methods lines = Val ks.
Proof.
  intros H. destruct (layout_removal _ _ _ H [] lines eq_refl) as (idxs & rm & H1 & H2 & H3 & _ & H5); [reflexivity|].
  unfold remove_all_private_methods. cbn [List.length] in H1. rewrite H1. cbn [andthen].
  rewrite (sort_desc_of idxs rm H2 H3). exact H5.
Qed.

(** ** Fuel *)
Lemma line_at_fuel l i : line_at l i <> NoFuel.
Proof. unfold line_at. destruct (py_nth l i); discriminate. Qed.
Lemma line_at_low l i x : line_at l i = Val x -> (- Z.of_nat (List.length l) <= i < Z.of_nat (List.length l))%Z.
Proof.
  unfold line_at, py_nth. destruct (py_index (List.length l) i) as [k|] eqn:E; [|discriminate]. intros _.
  unfold py_index in E. destruct (Z.leb_spec 0 i).
  - destruct (Nat.ltb_spec (Z.to_nat i) (List.length l)); [lia | discriminate].
  - destruct (Z.leb_spec 0 (Z.of_nat (List.length l) + i)); [lia | discriminate].
Qed.

Lemma no_fuel_walk_up l fuel : forall i, (i + Z.of_nat (List.length l) < Z.of_nat fuel)%Z -> (- Z.of_nat (List.length l) <= i)%Z ->
  walk_up fuel l i <> NoFuel.
Proof.
  induction fuel as [|fuel IH]; intros i H H'; [lia|]. cbn [walk_up].
  destruct (line_at l (i - 1)) as [x| |] eqn:E; cbn [andthen]; [|discriminate | now apply line_at_fuel in E].
  destruct (contains "@" x); [|discriminate]. apply line_at_low in E. apply IH; lia.
Qed.
Lemma no_fuel_walk_down l fuel : forall i, (Z.of_nat (List.length l) - i < Z.of_nat fuel)%Z -> (i <= Z.of_nat (List.length l))%Z ->
  walk_down fuel l i <> NoFuel.
Proof.
  induction fuel as [|fuel IH]; intros i H H'; [lia|]. cbn [walk_down].
  destruct (line_at l i) as [x| |] eqn:E; cbn [andthen]; [|discriminate | now apply line_at_fuel in E].
  destruct (_ || _); [discriminate|]. apply line_at_low in E. apply IH; lia.
Qed.
Lemma no_fuel_decorators l fuel : forall i, (i + Z.of_nat (List.length l) + 1 < Z.of_nat fuel)%Z -> (- Z.of_nat (List.length l) <= i + 1)%Z ->
  decorators_above fuel l i <> NoFuel.
Proof.
  induction fuel as [|fuel IH]; intros i H H'; [lia|]. cbn [decorators_above].
  destruct (line_at l i) as [x| |] eqn:E; cbn [andthen]; [|discriminate | now apply line_at_fuel in E].
  destruct (contains "@" x); [|discriminate]. apply line_at_low in E.
  specialize (IH (i - 1)%Z). destruct (decorators_above fuel l (i - 1)); cbn; try discriminate. exfalso. apply IH; auto; lia.
Qed.
Lemma no_fuel_signature l fuel : forall i, (Z.of_nat (List.length l) - i < Z.of_nat fuel)%Z -> (i <= Z.of_nat (List.length l))%Z ->
  rest_of_signature fuel l i <> NoFuel.
Proof.
  induction fuel as [|fuel IH]; intros i H H'; [lia|]. cbn [rest_of_signature].
  destruct (line_at l i) as [x| |] eqn:E; cbn [andthen]; [|discriminate | now apply line_at_fuel in E].
  destruct (_ || _); [discriminate|]. apply line_at_low in E.
  specialize (IH (i + 1)%Z). destruct (rest_of_signature fuel l (i + 1)); cbn; try discriminate. exfalso. apply IH; auto; lia.
Qed.

Lemma andthen_no_fuel {A B} (r : exc A) (f : A -> exc B) : r <> NoFuel -> (forall a, r = Val a -> f a <> NoFuel) -> andthen r f <> NoFuel.
Proof. destruct r; cbn; intros H1 H2; auto; discriminate. Qed.

Lemma it_is_string_fuel l k : it_is_string l k <> NoFuel.
Proof. unfold it_is_string, before. destruct k; cbn [andthen]; [discriminate|]. destruct (find_str _ l); discriminate. Qed.
Lemma defines_fuel n l : defines n l <> NoFuel.
Proof.
  unfold defines. destruct (startswith _ _); [|discriminate]. apply andthen_no_fuel; [apply it_is_string_fuel | discriminate].
Qed.

Lemma walk_up_le fuel l : forall i j, walk_up fuel l i = Val j -> (j <= i)%Z.
Proof.
  induction fuel as [|fuel IH]; intros i j; cbn [walk_up]; [discriminate|].
  destruct (line_at l (i - 1)); cbn [andthen]; try discriminate. destruct (contains "@" a).
  - intros H. apply IH in H. lia.
  - intros H. apply Val_inj in H. lia.
Qed.

Lemma search_method_from_ok above name all lines : forall idx, idx + List.length lines <= List.length all ->
  search_method_from above idx name all lines <> NoFuel /\
  forall l, search_method_from above idx name all lines = Val l -> Forall (fun i => (i <= Z.of_nat (List.length all))%Z) l.
Proof.
  induction lines as [|x lines IH]; intros idx H; cbn [search_method_from List.length] in *.
  - split; [discriminate|]. intros l E. apply Val_inj in E. subst. constructor.
  - destruct (IH (S idx)) as [I1 I2]; [lia|]. destruct (defines name x) as [[|]| |] eqn:D; cbn [andthen]; try (split; [discriminate | intros; discriminate]).
    + set (w := if above then walk_up (idx + List.length all + 1) all (Z.of_nat idx) else Val (Z.of_nat idx)).
      assert (Hw : w <> NoFuel) by (unfold w; destruct above; [apply no_fuel_walk_up; lia | discriminate]).
      assert (Hj : forall j, w = Val j -> (j <= Z.of_nat idx)%Z).
      { unfold w. intros j. destruct above; [apply walk_up_le | intros E; apply Val_inj in E; lia]. }
      destruct w as [j| |]; cbn [andthen]; [|split; [discriminate | intros; discriminate] | congruence].
      destruct (search_method_from above (S idx) name all lines) as [r| |]; cbn [andthen]; [|split; [discriminate | intros; discriminate] | congruence].
      split; [discriminate|]. intros l E. apply Val_inj in E. subst l. constructor; [specialize (Hj j eq_refl); lia | auto].
    + auto.
    + now apply defines_fuel in D.
Qed.

Lemma search_method_fuel above name lines : search_method above name lines <> NoFuel.
Proof. now apply search_method_from_ok. Qed.

Lemma last_of_In l x : last_of l = Val x -> In x l.
Proof.
  unfold last_of. destruct (rev l) as [|y r] eqn:E; [discriminate|]. intros H. apply Val_inj in H. subst y.
  apply in_rev. rewrite E. now left.
Qed.

Lemma walk_up_low fuel l : forall i j, walk_up fuel l i = Val j -> (- Z.of_nat (List.length l) <= j - 1)%Z.
Proof.
  induction fuel as [|fuel IH]; intros i j; cbn [walk_up]; [discriminate|].
  destruct (line_at l (i - 1)) eqn:E; cbn [andthen]; try discriminate. destruct (contains "@" a).
  - apply IH.
  - intros H. apply Val_inj in H. apply line_at_low in E. lia.
Qed.
Lemma search_method_low name all lines : forall idx l, search_method_from true idx name all lines = Val l ->
  Forall (fun i => (- Z.of_nat (List.length all) <= i - 1)%Z) l.
Proof.
  induction lines as [|x lines IH]; intros idx l; cbn [search_method_from].
  - intros E. apply Val_inj in E. subst. constructor.
  - destruct (defines name x) as [[|]| |]; cbn [andthen]; try discriminate; [|apply IH].
    destruct (walk_up _ all (Z.of_nat idx)) as [j| |] eqn:W; cbn [andthen]; try discriminate.
    destruct (search_method_from true (S idx) name all lines) as [r| |] eqn:R; cbn [andthen]; try discriminate.
    intros E. apply Val_inj in E. subst l. constructor; [now apply walk_up_low in W | eapply IH, R].
Qed.

Lemma get_signature_fuel name lines : get_signature name lines <> NoFuel.
Proof.
  unfold get_signature. apply andthen_no_fuel; [apply search_method_fuel|]. intros idxs E.
  apply andthen_no_fuel. { unfold last_of. destruct (rev idxs); discriminate. }
  intros u Hu. apply andthen_no_fuel; [|discriminate]. apply last_of_In in Hu.
  destruct (search_method_from_ok true name lines lines 0) as [_ H]; [auto|]. specialize (H _ E). rewrite Forall_forall in H. specialize (H _ Hu).
  assert (L := search_method_low _ _ _ _ _ E). rewrite Forall_forall in L. specialize (L _ Hu). cbn beta in L.
  apply no_fuel_walk_down; lia.
Qed.

Lemma private_lines_fuel all lines : forall idx, idx + List.length lines <= List.length all -> private_lines_from idx all lines <> NoFuel.
Proof.
  induction lines as [|x lines IH]; intros idx H; cbn [private_lines_from List.length] in *; [discriminate|].
  destruct (is_private x); [|apply IH; lia]. apply andthen_no_fuel.
  - unfold lines_of_private. apply andthen_no_fuel; [apply no_fuel_decorators; lia|]. intros d _.
    apply andthen_no_fuel; [apply no_fuel_signature; lia | discriminate].
  - intros a _. apply andthen_no_fuel; [apply IH; lia | discriminate].
Qed.
Lemma pops_fuel idxs : forall l, pops idxs l <> NoFuel.
Proof.
  induction idxs as [|i r IH]; intros l; cbn [pops]; [discriminate|]. apply andthen_no_fuel; auto.
  unfold pop. destruct (py_index _ i); discriminate.
Qed.
Lemma remove_private_fuel lines : remove_all_private_methods lines <> NoFuel.
Proof. apply andthen_no_fuel; [now apply private_lines_fuel | intros; apply pops_fuel]. Qed.
