(** Property theorems about merging of dicts. *)
From Coq Require Import Ascii String List Bool Arith ZArith Lia Permutation.
From Verif Require Import PyStr Utils Strategies Dispatch Values Tree Build SpecNames SpecData SpecMerge.
From Verif Require Import TreeFacts BuildFacts TreeProofs FloatFacts MergeFacts GroupFacts Samples.
Import ListNotations.
Local Open Scope string_scope.
Local Open Scope nat_scope.

(** ** C20: the similarity is the true percentage.
    Full claim: [percentage c t = 100 * c / t] for all [c <= t].  Proved (for fewer than 2^40 keys) unless [t]
    divides [100 * c], where the result can be one too small; 29 common keys of 50 give 57. *)
Theorem C20_similarity_partial : forall c t, 0 < t -> c <= t -> (Z.of_nat t < 2 ^ 40)%Z ->
  (~ Nat.divide t (100 * c) -> percentage c t = 100 * c / t) /\
  (Nat.divide t (100 * c) -> percentage c t = 100 * c / t \/ S (percentage c t) = 100 * c / t) /\
  (c = t -> percentage c t = 100) /\ (c = 0 -> percentage c t = 0).
Proof.
  intros c t Ht Hc Hb.
  assert (Same : c = t -> percentage c t = 100) by (intros ->; apply percentage_same; lia).
  assert (Zero : c = 0 -> percentage c t = 0) by (intros ->; apply percentage_zero).
  destruct (Nat.eq_dec c 0) as [->|Hc0].
  { rewrite percentage_zero, Nat.mul_0_r, Nat.div_0_l by lia. repeat split; intros; auto; lia. }
  destruct (Nat.eq_dec c t) as [->|Hne].
  { rewrite percentage_same, Nat.div_mul by lia. repeat split; intros; auto; lia. }
  set (q := 100 * c / t). pose proof (Nat.div_mod (100 * c) t ltac:(lia)) as D. fold q in D.
  pose proof (Nat.mod_upper_bound (100 * c) t ltac:(lia)) as U.
  assert (Q : q < 100) by (apply Nat.div_lt_upper_bound; lia).
  destruct (percentage_spec c t (S q)) as [_ P2]; [lia|auto|lia|]. assert (L : percentage c t < S q) by (apply P2; lia).
  split; [|split; [|split; [intros; contradiction | auto]]].
  - intros Nd. destruct (percentage_spec c t q) as [P1 _]; [lia|auto|lia|].
    assert (100 * c mod t <> 0). { intros F. apply Nd. exists q. lia. }
    assert (q <= percentage c t) by (apply P1; lia). lia.
  - intros (z & E). assert (z = q) by (unfold q; rewrite E, Nat.div_mul; lia). subst z.
    destruct (percentage_spec c t (q - 1)) as [P1 _]; [lia|auto|lia|].
    assert (q - 1 <= percentage c t); [|lia]. apply P1. destruct q as [|q']; [lia|]. replace (S q' - 1) with q' by lia. lia.
Qed.
Print Assumptions C20_similarity_partial.
(** The exact result for all numbers: it is the true percentage, except that 29, 57 and 58 percent, if reached exactly, come out one
    too small. *)
Definition unlucky (p : nat) : Prop := p = 29 \/ p = 57 \/ p = 58.
Lemma unlucky_spec p : (Nat.eqb p 29 || Nat.eqb p 57 || Nat.eqb p 58)%bool = true <-> unlucky p.
Proof. unfold unlucky. rewrite !orb_true_iff, !Nat.eqb_eq. tauto. Qed.
Theorem C20_exact : forall c t, 0 < t -> c <= t -> (Z.of_nat t < 2 ^ 40)%Z ->
  (forall p, unlucky p -> 100 * c = p * t -> percentage c t = p - 1) /\
  ((forall p, unlucky p -> 100 * c <> p * t) -> percentage c t = 100 * c / t).
Proof.
  intros c t Ht Hc Hb. split.
  - intros p U E. rewrite (percentage_whole c t p) by (auto; lia). now rewrite (proj2 (unlucky_spec p) U).
  - intros N. destruct (C20_similarity_partial c t Ht Hc Hb) as (A & _). destruct (Nat.eq_dec (100 * c mod t) 0) as [E|E].
    + pose proof (Nat.div_mod (100 * c) t ltac:(lia)) as D. set (q := 100 * c / t) in *. rewrite E in D.
      rewrite (percentage_whole c t q) by lia. destruct (Nat.eqb q 29 || Nat.eqb q 57 || Nat.eqb q 58)%bool eqn:B; auto. exfalso. apply (N q); [now apply unlucky_spec|lia].
    + apply A. intros (z & D). apply E. rewrite D. apply Nat.mod_mul. lia.
Qed.
Print Assumptions C20_exact.
Example C20_exact_example : 100 * 58 = 29 * 200 /\ percentage 58 200 = 28 /\ percentage 57 101 = 56 /\ percentage 60 200 = 30.
Proof. repeat split; vm_compute; reflexivity. Qed.

Theorem C20_similarity_refuted : exists c t, 0 < t /\ c <= t /\ percentage c t <> 100 * c / t.
Proof. exists 29, 50. split; [lia|]. split; [lia|]. vm_compute. discriminate. Qed.
Print Assumptions C20_similarity_refuted.

Example C20_hypotheses : 0 < 7 /\ 3 <= 7 /\ (Z.of_nat 7 < 2 ^ 40)%Z /\ ~ Nat.divide 7 300 /\ percentage 3 7 = 42.
Proof.
  split; [lia|]. split; [lia|]. split; [reflexivity|]. split; [|vm_compute; reflexivity]. intros (z & E). lia.
Qed.

(** ** C19: when dicts are merged.
    Full claim: in every sequence, the string-keyed dicts share one node exactly when the percentage of the keys
    common to all of them reaches the threshold and the types agree key by key.  Proved unless the percentage is
    exactly the threshold without being 0 or 100 (the code computes it in floating point, see C20).  The types
    are those found in [reps]: one dict for each node that the equality of nodes distinguishes (elements beyond
    the limit are not looked at). *)
Theorem C19_when_merged_partial : forall s ord fuel name d r k ty l t c n,
  valid s -> set_like ord -> s_dict s = DTypedDict -> unique_keys (VSeq k ty l) ->
  build s ord fuel name d r (VSeq k ty l) = Ok t ->
  number_of (in_all (string_dicts (limit s l))) c -> number_of (in_some (string_dicts (limit s l))) n ->
  0 < n -> (Z.of_nat n < 2 ^ 40)%Z -> 100 * c <> s_merge s * n \/ c = n \/ c = 0 ->
  exists reps, (forall x, In x reps -> stands_for (string_dicts (limit s l)) x) /\
    (one_td_child s t <-> similar_enough (s_merge s) c n /\ types_agree reps).
Proof.
  intros s ord fuel name d r k ty l t c n Hs Ho Hd Hu H Hc Hn Hp Hb He.
  assert (Td : is_td_strategy s = true) by (unfold is_td_strategy; now rewrite Hd).
  assert (HK : 1 <= s_merge s <= 100) by (split; [now apply valid_merge | now apply valid_merge_100]).
  destruct (merged_when s ord Ho Td fuel name d r k ty l t c n H) as (reps & R1 & R2); auto; try lia.
  - intros x Hx. apply string_dicts_In in Hx as (_ & ty' & Hx). apply (Hu MDict ty'). econstructor; [|constructor]. now apply (limit_incl s l).
  - exists reps. split; auto. rewrite R2. unfold similar_enough. rewrite (percentage_exact c n (s_merge s)); auto; [tauto|]. eapply common_le; eauto.
Qed.
Print Assumptions C19_when_merged_partial.
(** The exact condition, for all numbers of keys: the percentage reaches the threshold, unless the threshold is 29, 57 or 58 and reached
    exactly. *)
Theorem C19_exact : forall s ord fuel name d r k ty l t c n,
  valid s -> set_like ord -> s_dict s = DTypedDict -> unique_keys (VSeq k ty l) ->
  build s ord fuel name d r (VSeq k ty l) = Ok t ->
  number_of (in_all (string_dicts (limit s l))) c -> number_of (in_some (string_dicts (limit s l))) n ->
  0 < n -> (Z.of_nat n < 2 ^ 40)%Z ->
  exists reps, (forall x, In x reps -> stands_for (string_dicts (limit s l)) x) /\
    (one_td_child s t <-> similar_enough (s_merge s) c n /\ ~ (unlucky (s_merge s) /\ 100 * c = s_merge s * n) /\ types_agree reps).
Proof.
  intros s ord fuel name d r k ty l t c n Hs Ho Hd Hu H Hc Hn Hp Hb.
  assert (Td : is_td_strategy s = true) by (unfold is_td_strategy; now rewrite Hd).
  assert (HK : 1 <= s_merge s <= 100) by (split; [now apply valid_merge | now apply valid_merge_100]).
  destruct (merged_when s ord Ho Td fuel name d r k ty l t c n H) as (reps & R1 & R2); auto; try lia.
  - intros x Hx. apply string_dicts_In in Hx as (_ & ty' & Hx). apply (Hu MDict ty'). econstructor; [|constructor]. now apply (limit_incl s l).
  - exists reps. split; auto. rewrite R2. assert (Hcn : c <= n) by (eapply common_le; eauto).
    assert (E : s_merge s <= percentage c n <-> similar_enough (s_merge s) c n /\ ~ (unlucky (s_merge s) /\ 100 * c = s_merge s * n)); [|tauto].
    destruct (Nat.eq_dec (100 * c) (s_merge s * n)) as [Eq|Ne].
    + unfold similar_enough. rewrite (percentage_whole c n (s_merge s)) by (auto; lia).
      destruct (Nat.eqb (s_merge s) 29 || Nat.eqb (s_merge s) 57 || Nat.eqb (s_merge s) 58)%bool eqn:B.
      * apply unlucky_spec in B. split; [lia|]. intros [_ N]. exfalso. now apply N.
      * split; [|lia]. intros _. split; [lia|]. intros [U _]. apply unlucky_spec in U. congruence.
    + unfold similar_enough. rewrite (percentage_exact c n (s_merge s)); auto. tauto.
Qed.
Print Assumptions C19_exact.

(** The same for the decision alone, on any metadata objects, with the percentage that the code computes. *)
Theorem C19_decision : forall s ms c t,
  (forall m, In m ms -> NoDup (map fst (m_data m))) ->
  number_of (in_all (map m_data ms)) c -> number_of (in_some (map m_data ms)) t ->
  (should_merge s ms = true <-> s_merge s <= percentage c t /\ types_agree (map m_data ms)).
Proof. exact should_merge_spec. Qed.
Print Assumptions C19_decision.

(** 29 of 50 keys are common and the threshold is 58 percent: not merged. *)
Definition ints (n : nat) : list (string * pyval) := map (fun i => (append "k" (str_of_nat i), vint)) (seq 0 n).
Definition s58 : strategies := Strategies LList TFixed DTypedDict PFull 1 "" 58 false (Some 500).
Definition two_dicts : pyval := vlist [vdict (ints 29); vdict (ints 50)].
Definition ikeys (n : nat) : list key := map (fun i => KStr (append "k" (str_of_nat i))) (seq 0 n).
Lemma ikeys_NoDup n : n <= 50 -> NoDup (ikeys n).
Proof.
  intros H. assert (F : NoDup (ikeys 50)).
  { assert (G : forall l, (fix nd (l : list key) := match l with [] => true | x :: r => negb (existsb (key_eqb x) r) && nd r end) l = true -> NoDup l).
    { induction l as [|x l IH]; intros G; [constructor|]. apply andb_true_iff in G as [G1 G2]. constructor; auto. apply negb_true_iff in G1. now apply kin_false. }
    apply G. vm_compute. reflexivity. }
  unfold ikeys in *. replace 50 with (n + (50 - n)) in F by lia. rewrite seq_app, map_app in F.
  revert F. generalize (map (fun i => KStr (append "k" (str_of_nat i))) (seq 0 n)). intros l.
  generalize (map (fun i => KStr (append "k" (str_of_nat i))) (seq (0 + n) (50 - n))). intros l'. induction l as [|x l IH]; simpl; intros F; [constructor|].
  inversion F; subst. constructor; auto. intros G. apply H2. apply in_app_iff. auto.
Qed.
Lemma ints_keys n k : has_key k (map (fun kv => (KStr (fst kv), snd kv)) (ints n)) <-> In k (ikeys n).
Proof. unfold has_key, ints, ikeys. rewrite !map_map. cbn [fst]. tauto. Qed.
Lemma ikeys_visible n k : In k (ikeys n) -> ~ doc_key k.
Proof.
  intros H F. apply hidden_doc in F. unfold ikeys in H. apply in_map_iff in H as (i & <- & _). discriminate.
Qed.
Lemma ikeys_incl n m k : n <= m -> In k (ikeys n) -> In k (ikeys m).
Proof.
  intros H G. unfold ikeys in *. apply in_map_iff in G as (i & <- & Hi). apply in_map_iff. exists i. split; auto. apply in_seq in Hi. apply in_seq. lia.
Qed.
Theorem C19_when_merged_refuted : exists s ord v name t k ty l c n,
  valid s /\ set_like ord /\ s_dict s = DTypedDict /\ v = VSeq k ty l /\ from_data s ord v name = Ok t /\
  number_of (in_all (string_dicts l)) c /\ number_of (in_some (string_dicts l)) n /\
  similar_enough (s_merge s) c n /\ (forall kx x, In kx (string_dicts l) -> In x kx -> type_of (snd x) = ty_int) /\
  ~ one_td_child s t.
Proof.
  destruct (from_data s58 as_inserted two_dicts "Example") as [t| |] eqn:E; [|vm_compute in E; discriminate|vm_compute in E; discriminate].
  set (d1 := map (fun kv => (KStr (fst kv), snd kv)) (ints 29)). set (d2 := map (fun kv => (KStr (fst kv), snd kv)) (ints 50)).
  set (l := [VMap MDict ty_dict d1; VMap MDict ty_dict d2]).
  assert (SD : string_dicts l = [d1; d2]) by reflexivity.
  exists s58, as_inserted, two_dicts, "Example", t, KList, ty_list, l, 29, 50.
  split; [exists (Raw "list" "fixed" "TypedDict" "Full type hint" 1 "" 58 false (Some 500%Z)); reflexivity|].
  split; [apply as_inserted_set_like|]. split; [reflexivity|]. split; [reflexivity|]. split; [exact E|].
  split; [|split; [|split; [|split]]].
  - exists (ikeys 29). split; [apply ikeys_NoDup; lia|]. split; [|reflexivity]. intros k. rewrite SD. split.
    + intros H. split; [eapply ikeys_visible; eauto|]. split; [discriminate|]. intros d [<-|[<-|[]]]; apply ints_keys; auto. eapply ikeys_incl; [|exact H]. lia.
    + intros (_ & _ & H). apply ints_keys. apply H. simpl; auto.
  - exists (ikeys 50). split; [apply ikeys_NoDup; lia|]. split; [|reflexivity]. intros k. rewrite SD. split.
    + intros H. split; [eapply ikeys_visible; eauto|]. exists d2. split; [simpl; auto|]. now apply ints_keys.
    + intros (_ & d & [<-|[<-|[]]] & H); apply ints_keys in H; auto. eapply ikeys_incl; [|exact H]. lia.
  - split; [lia|]. vm_compute. lia.
  - rewrite SD. intros kx x [<-|[<-|[]]] Hx; apply in_map_iff in Hx as (y & <- & Hy); apply in_map_iff in Hy as (z & <- & _); reflexivity.
  - intros F. assert (G : forallb (fun a => forallb (fun b => Nat.eqb (List.length (tcs a)) (List.length (tcs b))) (map etree (tcs t))) (map etree (tcs t)) = true).
    { apply forallb_forall. intros a Ha. apply forallb_forall. intros b Hb. assert (T : forallb (is_td s58) (map etree (tcs t)) = true).
      { vm_compute in E. injection E as <-. vm_compute. reflexivity. }
      rewrite forallb_forall in T. rewrite (F a b); auto. apply Nat.eqb_refl. }
    vm_compute in E. injection E as <-. vm_compute in G. discriminate.
Qed.
Print Assumptions C19_when_merged_refuted.

(** ** C21: required keys of a merged dict.
    Every typed dict node in a sequence stands for a group of the dicts of the sequence, every dict is in a group;
    the node has exactly the keys of the dicts of its group, and a key is required exactly when all of them have
    it.  (Elements beyond the limit are not looked at.) *)
Definition required (c : tree) (k : key) : Prop := dget k (m_required (node_meta c)) = Some true.
Theorem C21_required_keys : forall s ord fuel name d r k ty l t,
  set_like ord -> s_dict s = DTypedDict -> build s ord fuel name d r (VSeq k ty l) = Ok t ->
  exists groups : list (tree * list dict),
    map fst groups = map etree (tcs t) /\
    (forall c ds, In (c, ds) groups -> node_is_typed_dict s c = true ->
       ds <> [] /\ (forall x, In x ds -> In x (string_dicts (limit s l))) /\
       forall key, (In key (map ekey (tcs c)) <-> in_some ds key) /\ (required c key <-> in_all ds key)) /\
    (forall x, In x (string_dicts (limit s l)) ->
       exists c ds, In (c, ds) groups /\ node_is_typed_dict s c = true /\ In x ds).
Proof.
  intros s ord fuel name d r k ty l t Ho Hd H.
  assert (Td : is_td_strategy s = true) by (unfold is_td_strategy; now rewrite Hd).
  destruct (explained_build s ord Ho Td _ _ _ _ _ _ _ _ H) as (gs & A & B & C). exists gs. split; auto. split.
  - intros c ds Hc T. destruct (B c ds Hc T) as ((N & S & P) & I). split; auto. split.
    + intros x Hx. apply string_dicts_In. split; auto.
    + intros key. destruct (P key) as [P1 P2]. split; [symmetry; exact P1 | exact P2].
  - intros x Hx. apply string_dicts_In in Hx as (K & ty' & Hx). destruct (C ty' x Hx K) as (c & ds & ? & ? & ?). eauto 6.
Qed.
Print Assumptions C21_required_keys.

(** When they are merged there is one group. *)
Theorem C21_one_group : forall s ord fuel name d r k ty l t c,
  set_like ord -> s_dict s = DTypedDict -> build s ord fuel name d r (VSeq k ty l) = Ok t -> one_td_child s t ->
  In c (map etree (tcs t)) -> node_is_typed_dict s c = true ->
  forall key, (In key (map ekey (tcs c)) <-> in_some (string_dicts (limit s l)) key) /\
              (required c key <-> in_all (string_dicts (limit s l)) key).
Proof.
  intros s ord fuel name d r k ty l t c Ho Hd H One Hc T key.
  assert (Td : is_td_strategy s = true) by (unfold is_td_strategy; now rewrite Hd).
  destruct (C21_required_keys _ _ _ _ _ _ _ _ _ _ Ho Hd H) as (gs & A & B & C).
  assert (Same : forall c' ds, In (c', ds) gs -> node_is_typed_dict s c' = true -> c' = c).
  { intros c' ds H1 H2. apply One; auto. rewrite <- A. apply in_map_iff. exists (c', ds). auto. }
  rewrite <- A in Hc. apply in_map_iff in Hc as ([c0 ds0] & E & Hc). cbn [fst] in E. subst c0.
  destruct (B c ds0 Hc T) as (N & I & P). destruct (P key) as [P1 P2]. split.
  - split.
    + intros F. apply P1 in F as (F1 & x & Hx & F2). split; auto. exists x. auto.
    + intros (F1 & x & Hx & F2). destruct (C x Hx) as (c' & ds & H1 & H2 & H3). pose proof (Same c' ds H1 H2); subst c'.
      destruct (B c ds H1 T) as (_ & _ & P'). apply P'. split; eauto.
  - split.
    + intros F. assert (G : in_all ds0 key) by now apply P2. destruct G as (G1 & G2 & G3). split; auto. split.
      * destruct ds0 as [|x ds0]; [congruence|]. specialize (I x (or_introl eq_refl)). intros E. rewrite E in I. destruct I.
      * intros x Hx. destruct (C x Hx) as (c' & ds & H1 & H2 & H3). pose proof (Same c' ds H1 H2); subst c'.
        destruct (B c ds H1 T) as (_ & _ & P'). destruct (P' key) as [_ P2']. apply P2' in F as (_ & _ & F). auto.
    + intros (F1 & F2 & F3). apply P2. split; auto.
Qed.
Print Assumptions C21_one_group.

(** [[{"a", "b"}, {"b", "a", "c"}, {"b", "c"}]] with threshold 10. *)
Definition s10 : strategies := Strategies LList TFixed DTypedDict PFull 1 "" 10 false (Some 500).
Definition three_dicts : pyval :=
  vlist [vdict [("a", vint); ("b", vstr)]; vdict [("b", vstr); ("a", vint); ("c", vfloat)]; vint; vdict [("c", vfloat); ("b", vstr)]].
Example C21_hypotheses : exists t c, build s10 as_inserted 3 "Example" 0 true three_dicts = Ok t /\
  In c (map etree (tcs t)) /\ node_is_typed_dict s10 c = true /\
  m_required (node_meta c) = [(KStr "a", false); (KStr "b", true); (KStr "c", false)] /\ List.length (tcs t) = 2.
Proof. eexists _, _. split; [vm_compute; reflexivity|]. split; [simpl; right; left; reflexivity|]. repeat split. Qed.

Example C19_hypotheses :
  let l := [vdict [("a", vint); ("b", vstr)]; vdict [("b", vstr); ("a", vint); ("c", vfloat)]] in
  valid s10 /\ number_of (in_all (string_dicts (limit s10 l))) 2 /\ number_of (in_some (string_dicts (limit s10 l))) 3 /\
  100 * 2 <> s_merge s10 * 3 /\ exists t, build s10 as_inserted 3 "Example" 0 true (vlist l) = Ok t.
Proof.
  cbv zeta. split; [exists (Raw "list" "fixed" "TypedDict" "Full type hint" 1 "" 10 false (Some 500%Z)); reflexivity|].
  set (l := limit _ _).
  split; [|split; [|split; [vm_compute; discriminate | eexists; vm_compute; reflexivity]]].
  - exists [KStr "a"; KStr "b"]. split; [repeat constructor; simpl; intuition discriminate|]. split; [|reflexivity]. intros k. split.
    + intros [<-|[<-|[]]]; (split; [intros F; apply hidden_doc in F; discriminate|]; split; [discriminate|]; intros d [<-|[<-|[]]]; vm_compute; tauto).
    + intros (_ & _ & H). apply (H (map (fun kv => (KStr (fst kv), snd kv)) [("a", vint); ("b", vstr)])). vm_compute; auto.
  - exists [KStr "a"; KStr "b"; KStr "c"]. split; [repeat constructor; simpl; intuition discriminate|]. split; [|reflexivity]. intros k. split.
    + intros H. split; [intros F; apply hidden_doc in F; destruct H as [<-|[<-|[<-|[]]]]; discriminate|].
      exists (map (fun kv => (KStr (fst kv), snd kv)) [("b", vstr); ("a", vint); ("c", vfloat)]). split; [vm_compute; auto|]. unfold has_key. cbn [map fst]. simpl in *. tauto.
    + intros (_ & d & [<-|[<-|[]]] & H); vm_compute in H; simpl; tauto.
Qed.
