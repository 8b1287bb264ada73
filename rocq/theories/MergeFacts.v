(** The merge condition and the metadata of merged dicts. *)
From Coq Require Import Ascii String List Bool Arith ZArith Lia Permutation.
From Verif Require Import PyStr PyStrFacts Utils Strategies Dispatch Values Tree Build TreeFacts SpecNames NamesFacts SpecData SpecMerge BuildFacts BuildInd TotalFacts TreeProofs SeqFacts FloatFacts.
Import ListNotations.
Local Open Scope string_scope.

Definition kin (k : key) (l : list key) : bool := existsb (key_eqb k) l.
Lemma kin_spec k l : kin k l = true <-> In k l.
Proof.
  unfold kin. rewrite existsb_exists. split.
  - intros (x & H & E). apply key_eqb_spec in E. now subst.
  - intros H. exists k. split; auto. apply key_eqb_refl.
Qed.
Lemma kin_false k l : kin k l = false <-> ~ In k l.
Proof. rewrite <- kin_spec. now destruct (kin k l). Qed.
Lemma hidden_false k : is_hidden k = false <-> ~ doc_key k.
Proof. rewrite <- hidden_doc. now destruct (is_hidden k). Qed.

(** ** Counting keys *)
Lemma visible_In k d : In k (visible_keys d) <-> ~ doc_key k /\ has_key k d.
Proof. unfold visible_keys. rewrite filter_In, negb_true_iff, hidden_false. unfold has_key. tauto. Qed.
Lemma visible_NoDup d : NoDup (map fst d) -> NoDup (visible_keys d).
Proof. apply NoDup_filter. Qed.
Lemma common_In ds k : In k (common_keys (map visible_keys ds)) <-> in_all ds k.
Proof.
  unfold in_all. destruct ds as [|d ds]; cbn [map common_keys]; [simpl; intuition|].
  rewrite filter_In, visible_In, forallb_forall. split.
  - intros [[A B] C]. split; auto. split; [discriminate|]. intros d' [<-|H]; auto.
    specialize (C _ (in_map visible_keys _ _ H)). apply kin_spec, visible_In in C. tauto.
  - intros (A & _ & B). split; [split; auto; apply B; simpl; auto|]. intros l Hl. apply in_map_iff in Hl as (d' & <- & Hd). apply kin_spec, visible_In. split; auto. apply B. simpl. auto.
Qed.
Lemma common_NoDup ds : (forall d, In d ds -> NoDup (map fst d)) -> NoDup (common_keys (map visible_keys ds)).
Proof. destruct ds as [|d ds]; cbn [map common_keys]; intros H; [constructor|]. apply NoDup_filter, visible_NoDup, H. simpl; auto. Qed.
Lemma add_keys_In new acc k : In k (add_keys new acc) <-> In k new \/ In k acc.
Proof.
  revert acc. induction new as [|x new IH]; intros acc; simpl; [tauto|]. rewrite IH. fold (kin x acc). destruct (kin x acc) eqn:E.
  - apply kin_spec in E. intuition. subst. auto.
  - rewrite in_app_iff. simpl. intuition.
Qed.
Lemma add_keys_NoDup new acc : NoDup acc -> NoDup (add_keys new acc).
Proof.
  revert acc. induction new as [|x new IH]; intros acc H; simpl; auto. apply IH. fold (kin x acc). destruct (kin x acc) eqn:E; auto.
  apply kin_false in E. now apply NoDup_snoc.
Qed.
Lemma total_In ds k : In k (total_keys (map visible_keys ds)) <-> in_some ds k.
Proof.
  unfold total_keys, in_some. assert (G : forall acc, In k (fold_left (fun acc k => add_keys k acc) (map visible_keys ds) acc) <-> In k acc \/ (~ doc_key k /\ exists d, In d ds /\ has_key k d)).
  { induction ds as [|d ds IH]; intros acc; simpl.
    - split; auto. intros [H|(_ & d & [] & _)]; auto.
    - rewrite IH, add_keys_In, visible_In. split.
      + intros [[[A B]|A]|(A & d' & B & C)]; auto; right; split; auto; [exists d|exists d']; auto.
      + intros [A|(A & d' & [<-|B] & C)]; auto. right. split; auto. exists d'. auto. }
  rewrite G. simpl. tauto.
Qed.
Lemma total_NoDup ds : NoDup (total_keys (map visible_keys ds)).
Proof.
  unfold total_keys. assert (G : forall acc, NoDup acc -> NoDup (fold_left (fun acc k => add_keys k acc) (map visible_keys ds) acc)).
  { induction ds as [|d ds IH]; intros acc H; simpl; auto. apply IH. now apply add_keys_NoDup. }
  apply G. constructor.
Qed.
Lemma number_unique P n m : number_of P n -> number_of P m -> n = m.
Proof.
  intros (l & A & B & <-) (l' & A' & B' & <-). apply Permutation_length. apply NoDup_Permutation; auto. intros k. rewrite B, B'. tauto.
Qed.
Lemma common_le ds c t : number_of (in_all ds) c -> number_of (in_some ds) t -> c <= t.
Proof.
  intros (l & A & B & <-) (l' & A' & B' & <-). apply NoDup_incl_length; auto. intros k Hk. apply B'. apply B in Hk as (H1 & H2 & H3).
  split; auto. destruct ds as [|d ds]; [congruence|]. exists d. split; [simpl; auto|]. apply H3. simpl; auto.
Qed.

(** ** Types under a key *)
Definition add_id (seen : list nat) (n : nat) : list nat :=
  let seen := if Nat.eqb n t_float then filter (fun x => negb (Nat.eqb x t_int)) seen else seen in
  if existsb (Nat.eqb n) seen then seen else (seen ++ [n])%list.
Definition run (l : list nat) : list nat := fold_left add_id l [].
Lemma existsb_eqb n l : existsb (Nat.eqb n) l = true <-> In n l.
Proof. rewrite existsb_exists. split; [intros (x & H & E); apply Nat.eqb_eq in E; now subst | intros H; exists n; split; auto; apply Nat.eqb_refl]. Qed.
Lemma add_id_In seen n x : In x (add_id seen n) <-> x = n \/ (In x seen /\ ~ (n = t_float /\ x = t_int)).
Proof.
  unfold add_id. cbv zeta. destruct (Nat.eqb n t_float) eqn:E.
  - apply Nat.eqb_eq in E. subst n. set (f := filter _ seen).
    assert (F : forall y, In y f <-> In y seen /\ y <> t_int).
    { intros y. unfold f. rewrite filter_In, negb_true_iff, Nat.eqb_neq. tauto. }
    destruct (existsb _ f) eqn:G.
    + apply existsb_eqb in G. rewrite F. split; [tauto|]. intros [->|[A B]]; [now apply F|]. split; auto.
    + rewrite in_app_iff, F. simpl. intuition.
  - apply Nat.eqb_neq in E. destruct (existsb _ seen) eqn:G.
    + apply existsb_eqb in G. split; [tauto|]. intros [->|[A B]]; auto.
    + rewrite in_app_iff. simpl. intuition.
Qed.
Lemma add_id_NoDup seen n : NoDup seen -> NoDup (add_id seen n).
Proof.
  intros H. unfold add_id. cbv zeta. set (f := if Nat.eqb n t_float then _ else _). assert (NoDup f) by (unfold f; destruct (Nat.eqb n t_float); auto; now apply NoDup_filter).
  destruct (existsb _ f) eqn:G; auto. apply NoDup_snoc; auto. intros F. apply existsb_eqb in F. congruence.
Qed.
Lemma run_snoc l n : run (l ++ [n]) = add_id (run l) n.
Proof. unfold run. now rewrite fold_left_app. Qed.
Lemma run_spec l : NoDup (run l) /\ (forall x, In x (run l) -> In x l) /\ (forall x, x <> t_int -> In x l -> In x (run l)) /\
  (In t_int l -> In t_int (run l) \/ In t_float l) /\ (forall l', l = (l' ++ [t_float])%list -> ~ In t_int (run l)) /\
  (forall l', l = (l' ++ [t_int])%list -> In t_int (run l)).
Proof.
  assert (If : t_int <> t_float) by discriminate.
  induction l as [|n l IH] using rev_ind.
  - split; [constructor|]. split; [intros x []|]. split; [intros x _ []|]. split; [intros []|]. split; intros l' E; now destruct l'.
  - destruct IH as (A & B & C & D & _ & _). rewrite run_snoc. split; [now apply add_id_NoDup|]. split; [|split; [|split; [|split]]].
    + intros x. rewrite add_id_In, in_app_iff. simpl. intros [->|[H _]]; auto.
    + intros x Hx H. rewrite add_id_In. apply in_app_iff in H as [H|[->|[]]]; auto. right. split; auto. intros [_ F]. auto.
    + intros H. rewrite add_id_In, in_app_iff. simpl. apply in_app_iff in H as [H|[->|[]]]; auto.
      destruct (D H) as [G|G]; auto. destruct (Nat.eq_dec n t_float) as [->|N]; [auto|]. left. right. split; auto. intros [F _]. auto.
    + intros l' E. apply app_inj_tail in E as [<- ->]. rewrite add_id_In. intros [F|[_ F]]; [discriminate|]. apply F. auto.
    + intros l' E. apply app_inj_tail in E as [<- ->]. rewrite add_id_In. auto.
Qed.
Lemma run_one l : l <> [] -> (List.length (run l) = 1 <-> one_type l).
Proof.
  intros Hl. destruct (run_spec l) as (A & B & C & D & E & F). split.
  - intros H. destruct (run l) as [|x [|y r]]; try discriminate. destruct (Nat.eq_dec x t_int) as [->|N].
    + left. exists t_int. intros y Hy. destruct (Nat.eq_dec y t_int) as [|N]; auto. destruct (C y N Hy) as [G|[]]; auto.
    + assert (K : forall y, In y l -> y = t_int \/ y = x).
      { intros y Hy. destruct (Nat.eq_dec y t_int) as [|M]; auto. destruct (C y M Hy) as [G|[]]; auto. }
      destruct (in_dec Nat.eq_dec t_int l) as [I|I].
      * right. assert (x = t_float). { destruct (D I) as [ [G|[ ] ] |G]; [congruence|]. destruct (K _ G) as [T|T]; [discriminate | auto]. }
        subst x. destruct (exists_last Hl) as (l' & n & ->). destruct (K n) as [->| ->]; [apply in_app_iff; simpl; auto| |].
        -- destruct (F l' eq_refl) as [G|[]]. congruence.
        -- exists l'. split; auto. intros y Hy. apply K. apply in_app_iff. auto.
      * left. exists x. intros y Hy. destruct (K y Hy) as [->|]; auto. contradiction.
  - intros H. assert (G : exists x, In x (run l) /\ forall y, In y (run l) -> y = x).
    { destruct H as [(t & H)|(l' & -> & H)].
      - exists t. split; [|intros y Hy; auto]. destruct (exists_last Hl) as (l' & n & ->). assert (n = t) by (apply H, in_app_iff; simpl; auto). subst n.
        destruct (Nat.eq_dec t t_int) as [->|N]; [now apply (F l')|]. apply C; auto. apply in_app_iff. simpl; auto.
      - exists t_float. split.
        + apply C; [discriminate|]. apply in_app_iff. simpl; auto.
        + intros y Hy. pose proof (B y Hy) as K. apply in_app_iff in K as [K|[<-|[]]]; auto. destruct (H y K) as [->|]; auto. exfalso. now apply (E l'). }
    destruct G as (x & G1 & G2). destruct (run l) as [|y [|z r]]; [destruct G1|reflexivity|].
    exfalso. inversion A; subst. apply H2. rewrite (G2 y), (G2 z) by (simpl; auto). simpl; auto.
Qed.

Definition vstep (vt : list (key * list nat)) (kv : key * pyval) : list (key * list nat) :=
  dset (fst kv) (add_type (type_of (snd kv)) (match dget (fst kv) vt with Some l => l | None => [] end)) vt.
Definition ids_under (k : key) (l : list (key * pyval)) : list nat :=
  map (fun kv => ty_id (type_of (snd kv))) (filter (fun kv => key_eqb k (fst kv)) l).
Lemma vstep_get l k : forall vt, dget k (fold_left vstep l vt) =
  match ids_under k l with [] => dget k vt | ids => Some (fold_left add_id ids (match dget k vt with Some l => l | None => [] end)) end.
Proof.
  induction l as [|[k' x] l IH]; intros vt; simpl; [reflexivity|]. rewrite IH. unfold ids_under. cbn [filter fst]. unfold vstep. cbn [fst snd]. rewrite dget_dset.
  destruct (key_eqb k k') eqn:E.
  - apply key_eqb_spec in E. subst k'. cbn [map snd]. fold (ids_under k l). destruct (ids_under k l); reflexivity.
  - reflexivity.
Qed.
Lemma vstep_NoDup l : forall vt, NoDup (map fst vt) -> NoDup (map fst (fold_left vstep l vt)).
Proof. induction l as [|kv l IH]; intros vt H; simpl; auto. apply IH. now apply dset_NoDup. Qed.
Lemma types_under_ids k ds : types_under k ds = ids_under k (flat_map (fun d => d) ds).
Proof.
  unfold types_under, ids_under. induction ds as [|d ds IH]; simpl; auto. now rewrite filter_app, map_app, <- IH.
Qed.
Lemma value_types_spec ms : forallb (fun e => Nat.eqb (List.length (snd e)) 1) (value_types ms) = true <-> types_agree (map m_data ms).
Proof.
  assert (V : value_types ms = fold_left vstep (flat_map m_data ms) []) by reflexivity.
  assert (F : flat_map m_data ms = flat_map (fun d => d) (map m_data ms)) by (rewrite !flat_map_concat_map, map_map; reflexivity).
  assert (ND : NoDup (map fst (value_types ms))) by (rewrite V; apply vstep_NoDup; constructor).
  rewrite forallb_forall. split.
  - intros H k d Hd Hk. rewrite types_under_ids, <- F. assert (N : ids_under k (flat_map m_data ms) <> []).
    { rewrite F. unfold has_key in Hk. apply in_map_iff in Hk as ([k' x] & E & Hx). simpl in E. subst k'. intros G. unfold ids_under in G. apply map_eq_nil in G.
      assert (In (k, x) (filter (fun kv => key_eqb k (fst kv)) (flat_map (fun d => d) (map m_data ms)))) as M.
      { apply filter_In. split; [apply in_flat_map; eauto | apply key_eqb_refl]. }
      rewrite G in M. destruct M. }
    apply run_one; auto. pose proof (vstep_get (flat_map m_data ms) k []) as G. destruct (ids_under k (flat_map m_data ms)) as [|a r]; [congruence|].
    cbn [dget] in G. rewrite <- V in G. apply dget_In in G. specialize (H _ G). now apply Nat.eqb_eq in H.
  - intros H [k l] Hl. cbn [snd]. apply Nat.eqb_eq. pose proof (NoDup_dget _ _ _ ND Hl) as G. rewrite V, vstep_get in G.
    destruct (ids_under k (flat_map m_data ms)) as [|a r] eqn:E; [discriminate|]. cbn [dget] in G. injection G as <-. change (List.length (run (a :: r)) = 1).
    apply run_one; [discriminate|]. rewrite <- E, F, <- types_under_ids.
    assert (exists kv, In kv (filter (fun kv => key_eqb k (fst kv)) (flat_map m_data ms))) as (kv & Hkv).
    { unfold ids_under in E. destruct (filter _ _) as [|kv ?]; [discriminate|]. exists kv. simpl; auto. }
    apply filter_In in Hkv as [K1 K2]. apply key_eqb_spec in K2. apply in_flat_map in K1 as (m & Hm & K1).
    apply (H k (m_data m)); [now apply in_map|]. unfold has_key. rewrite K2. now apply in_map.
Qed.

(** ** The condition *)
Lemma should_merge_spec s ms c t :
  (forall m, In m ms -> NoDup (map fst (m_data m))) ->
  number_of (in_all (map m_data ms)) c -> number_of (in_some (map m_data ms)) t ->
  (should_merge s ms = true <-> s_merge s <= percentage c t /\ types_agree (map m_data ms)).
Proof.
  intros Hn Hc Ht. unfold should_merge. set (ks := map (fun m => visible_keys (m_data m)) ms). cbv zeta.
  assert (K : ks = map visible_keys (map m_data ms)) by (unfold ks; now rewrite map_map).
  assert (C : List.length (common_keys ks) = c).
  { eapply number_unique; [|exact Hc]. exists (common_keys ks). split; [|split; [|reflexivity]].
    - rewrite K. apply common_NoDup. intros d Hd. apply in_map_iff in Hd as (m & <- & Hm). auto.
    - intros k. rewrite K. apply common_In. }
  assert (T : List.length (total_keys ks) = t).
  { eapply number_unique; [|exact Ht]. exists (total_keys ks). rewrite K. split; [apply total_NoDup|]. split; [|reflexivity]. intros k. apply total_In. }
  rewrite C, T. replace (c + (t - c)) with t by (pose proof (common_le _ _ _ Hc Ht); lia).
  rewrite andb_true_iff, negb_true_iff, Nat.ltb_ge, value_types_spec. tauto.
Qed.
Lemma percentage_exact c t K : c <= t -> (Z.of_nat t < 2 ^ 40)%Z -> 1 <= K <= 100 -> (100 * c <> K * t \/ c = t \/ c = 0) ->
  (K <= percentage c t <-> 0 < t /\ K * t <= 100 * c).
Proof.
  intros Hc Ht HK He. destruct (Nat.eq_dec c 0) as [->|Hc0].
  { rewrite percentage_zero. split; [lia|]. intros [A B]. nia. }
  destruct (Nat.eq_dec c t) as [->|Hne].
  { rewrite percentage_same; [|lia|lia]. split; [|lia]. intros _. split; [lia|nia]. }
  destruct (percentage_spec c t K) as [P1 P2]; lia.
Qed.


(** ** Required keys *)
Lemma required_new l : forall r k, dget k (fold_left (fun r kv => if dmem (fst kv) r || is_hidden (fst kv) then r else dset (fst kv) false r) l r) =
  match dget k r with Some b => Some b | None => if dmem k (A := pyval) l && negb (is_hidden k) then Some false else None end.
Proof.
  induction l as [|[k' x] l IH]; intros r k; cbn [fold_left fst].
  - simpl. now destruct (dget k r).
  - rewrite IH. cbn [dmem existsb fst]. fold (dmem k l). destruct (dmem k' r) eqn:E; cbn [orb].
    + destruct (dget k r) eqn:G; auto. destruct (key_eqb k k') eqn:K; auto. apply key_eqb_spec in K. subst k'. apply dmem_spec in E. now apply dget_None in G.
    + destruct (is_hidden k') eqn:H.
      * destruct (dget k r); auto. destruct (key_eqb k k') eqn:K; auto. apply key_eqb_spec in K. subst k'. now rewrite H, !andb_false_r.
      * rewrite dget_dset. destruct (key_eqb k k') eqn:K; auto. apply key_eqb_spec in K. subst k'. rewrite H.
        destruct (dget k r) eqn:G; auto. exfalso. assert (dmem k r = true); [|congruence]. apply dmem_spec. apply dget_In in G. now apply (in_map fst) in G.
Qed.
Lemma required_gone i l : forall r k, dget k (fold_left (fun r k => if existsb (key_eqb k) i || is_hidden k then r else dset k false r) l r) =
  if kin k l && negb (kin k i) && negb (is_hidden k) then Some false else dget k r.
Proof.
  induction l as [|x l IH]; intros r k; cbn [fold_left]; [reflexivity|]. rewrite IH. unfold kin. cbn [existsb]. fold (kin k l). fold (kin k i). fold (kin x i).
  destruct (key_eqb k x) eqn:K; cbn [orb andb].
  - apply key_eqb_spec in K. subst x. destruct (kin k i), (is_hidden k), (kin k l); cbn [negb orb andb]; auto. all: now rewrite dget_dset, key_eqb_refl.
  - destruct (kin x i || is_hidden x); auto. rewrite dget_dset, K. reflexivity.
Qed.
Lemma map_false_get (r : list (key * bool)) k : dget k (map (fun e => (fst e, false)) r) = option_map (fun _ => false) (dget k r).
Proof. induction r as [|[k' b] r IH]; simpl; auto. destruct (key_eqb k k'); auto. Qed.
Lemma update_required m m' k : dget k (m_required (update_meta m m')) =
  let base := match dget k (m_required m) with
              | Some b => Some b
              | None => if dmem k (m_data (update_meta m m')) && negb (is_hidden k) then Some false else None end in
  match m_initial m' with
  | [] => option_map (fun _ => false) base
  | i => if kin k (m_initial m) && negb (kin k i) && negb (is_hidden k) then Some false else base
  end.
Proof.
  unfold update_meta. cbn [m_required m_data]. set (data := fold_left _ (m_data m') (m_data m)). cbv zeta.
  destruct (m_initial m') as [|x i]; [rewrite map_false_get | rewrite required_gone]; rewrite required_new; reflexivity.
Qed.

(** The visible part of a metadata object: initial keys [I], all keys [U], required keys [A]. *)
Definition meta_ok (m : meta) (I U A : key -> Prop) : Prop :=
  (forall k, ~ doc_key k -> (In k (m_initial m) <-> I k) /\ (has_key k (m_data m) <-> U k) /\
     (dget k (m_required m) = Some true <-> A k) /\ (dget k (m_required m) <> None <-> U k)) /\
  (forall k, doc_key k -> dget k (m_required m) = None).

Lemma meta_ok_ext m I U A I' U' A' : (forall k, ~ doc_key k -> (I k <-> I' k) /\ (U k <-> U' k) /\ (A k <-> A' k)) -> meta_ok m I U A -> meta_ok m I' U' A'.
Proof.
  intros H [M N]. split; auto. intros k Hk. destruct (M k Hk) as (a & b & c & d). destruct (H k Hk) as (e & f & g). tauto.
Qed.
Lemma meta_ok_init d : meta_ok (init_meta d) (fun k => has_key k d) (fun k => has_key k d) (fun k => has_key k d).
Proof.
  assert (G : forall k, dget k (m_required (init_meta d)) = if kin k (visible_keys d) then Some true else None).
  { intros k. unfold init_meta. cbn [m_required]. fold (visible_keys d). induction (visible_keys d) as [|x l IH]; simpl; auto.
    unfold kin in *. destruct (key_eqb k x); auto. }
  split; intros k Hk.
  - rewrite G. assert (E : kin k (visible_keys d) = true <-> has_key k d) by (rewrite kin_spec, visible_In; tauto).
    cbn [init_meta m_initial m_data]. split; [reflexivity|]. split; [reflexivity|]. destruct (kin k (visible_keys d)).
    + split; split; intros _; try discriminate; try reflexivity; now apply E.
    + split; split; intros F; try congruence; apply E in F; discriminate.
  - rewrite G. destruct (kin k (visible_keys d)) eqn:E; auto. apply kin_spec, visible_In in E. tauto.
Qed.
Lemma meta_ok_update m m' (I U A I' U' A' : key -> Prop) : (forall k, ~ doc_key k -> (A k -> I k) /\ (I k -> U k)) -> meta_ok m I U A -> meta_ok m' I' U' A' ->
  meta_ok (update_meta m m') I (fun k => U k \/ U' k) (fun k => A k /\ I' k).
Proof.
  intros HA [M N] [M' N']. split; intros k Hk.
  - destruct (M k Hk) as (a & b & c & d). destruct (M' k Hk) as (a' & b' & c' & d').
    assert (Hh : is_hidden k = false) by now apply hidden_false.
    assert (D : dmem k (m_data (update_meta m m')) = true <-> U k \/ U' k).
    { rewrite dmem_spec, update_meta_keys. unfold has_key in *. tauto. }
    split; [exact a|]. split; [unfold has_key in *; rewrite update_meta_keys; tauto|].
    rewrite update_required, Hh. cbv zeta. cbn [negb]. rewrite !andb_true_r.
    assert (Ini : m_initial m' = [] -> ~ I' k). { intros E F. apply a' in F. rewrite E in F. destruct F. }
    destruct (HA k Hk) as [AI IU].
    set (base := match dget k (m_required m) with Some b => Some b | None => if dmem k (m_data (update_meta m m')) then Some false else None end).
    assert (B1 : base = Some true <-> A k).
    { unfold base. destruct (dget k (m_required m)); [tauto|]. split; [destruct (dmem _ _); discriminate|]. intros F. apply c in F. discriminate. }
    assert (B2 : base <> None <-> U k \/ U' k).
    { unfold base. destruct (dget k (m_required m)) eqn:E.
      - split; [|discriminate]. intros _. left. apply d. discriminate.
      - rewrite <- D. destruct (dmem _ _); split; try congruence; discriminate. }
    destruct (m_initial m') as [|x i] eqn:Ei.
    + split.
      * split; [destruct base; discriminate|]. intros [_ F]. now apply Ini in F.
      * rewrite <- B2. destruct base; simpl; split; congruence.
    + destruct (kin k (m_initial m)) eqn:E1; cbn [andb].
      * destruct (kin k (x :: i)) eqn:E2; cbn [negb].
        -- apply kin_spec in E2. split; [|exact B2]. rewrite B1. tauto.
        -- apply kin_false in E2. split; [split; [discriminate | intros [_ F]; apply a' in F; contradiction]|]. split; [|discriminate]. intros _. left. apply IU, a. now apply kin_spec.
      * apply kin_false in E1. split; [|exact B2]. rewrite B1. split; [|tauto]. intros F. exfalso. apply E1. apply a. tauto.
  - rewrite update_required. apply hidden_doc in Hk as Hh. rewrite Hh. rewrite (N k Hk). cbn [negb]. rewrite !andb_false_r. cbv zeta. destruct (m_initial m'); rewrite ?andb_false_r; reflexivity.
Qed.
