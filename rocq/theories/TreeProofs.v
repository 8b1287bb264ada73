(** Proofs of the properties about construction, names, bookkeeping, equality and renaming. *)
From Coq Require Import Ascii String List Bool Arith Lia Permutation.
From Verif Require Import PyStr PyStrFacts Utils Strategies Dispatch Values Tree Build TreeFacts SpecNames NamesFacts SpecData BuildFacts BuildInd TotalFacts.
Import ListNotations.
Local Open Scope string_scope.

(** ** Naming and totality *)

Definition W_all (c : ascii) : bool := true.
Definition W_plain (c : ascii) : bool := negb (oddb c).
Lemma W_all_closed : closed_class W_all.
Proof.
  split; try reflexivity.
  - intros c. simpl. induction (upper_char c); auto.
  - intros c. apply orb_true_r.
Qed.
Lemma W_plain_closed : closed_class W_plain.
Proof. split; try reflexivity; intros c; by_chars c. Qed.
Lemma W_all_str s : str_forall W_all s = true.
Proof. induction s; auto. Qed.
Lemma plain_spec s : plain s <-> str_forall W_plain s = true.
Proof.
  unfold plain, W_plain. rewrite str_forall_In. split; intros H c Hc; specialize (H c); rewrite chars_str_In in *.
  - apply negb_true_iff, not_true_iff_false. rewrite oddb_spec. auto.
  - rewrite <- oddb_spec. specialize (H Hc). apply negb_true_iff in H. now rewrite H.
Qed.
Lemma named_all v : ordinary_types v -> namedW W_all v.
Proof.
  intros [A B]. split.
  - intros x Hx. split; auto. apply W_all_str.
  - intros k Hk. split; [split; auto; apply W_all_str|]. intros. apply W_all_str.
Qed.
Lemma named_plain v : ordinary_types v -> plain_names v -> namedW W_plain v.
Proof.
  intros [A B] [C D]. split.
  - intros x Hx. split; auto. now apply plain_spec, C.
  - intros k Hk. destruct (D k Hk). split; [split; auto; now apply plain_spec|]. intros. now apply (W_camel W_plain W_plain_closed), plain_spec, H0.
Qed.

Lemma from_data_total s ord v n : valid s -> set_like ord -> ordinary_types v -> is_compatible n = true ->
  exists t, from_data s ord v n = Ok t.
Proof.
  intros Hs Ho Hv Hn. unfold from_data. rewrite Hn.
  destruct (build_total s ord Ho (valid_merge s Hs) W_all W_all_closed (W_all_str _) (S (vdepth v)) n 0 true v) as (t & E & _); eauto using named_all, W_all_str.
Qed.
Lemma from_data_refused s ord v n : is_compatible n = false -> from_data s ord v n = Err (BadName n).
Proof. unfold from_data. now intros ->. Qed.

Lemma all_names_nodes P t : all_names P t -> forall n, node_of n t -> P (tname n).
Proof.
  intros H n Hn. induction Hn; [now apply all_names_root|]. apply all_names_node in H as [_ H]. rewrite Forall_forall in H. now apply IHHn, (H e).
Qed.

Lemma from_data_names s ord v n t : valid s -> set_like ord -> ordinary_types v -> from_data s ord v n = Ok t ->
  forall x, node_of x t -> exists r, tname x = n ++ r.
Proof.
  intros Hs Ho Hv H. unfold from_data in H. destruct (is_compatible n) eqn:Hn; [|discriminate].
  destruct (build_total s ord Ho (valid_merge s Hs) W_all W_all_closed (W_all_str _) (S (vdepth v)) n 0 true v) as (t' & E & A); eauto using named_all, W_all_str.
  rewrite H in E. injection E as <-. intros x Hx. apply (all_names_nodes _ _ A) in Hx. apply Hx.
Qed.
Lemma from_data_identifiers s ord v n t : valid s -> set_like ord -> ordinary_types v -> plain_names v -> plain n ->
  from_data s ord v n = Ok t -> forall x, node_of x t -> identifier (tname x).
Proof.
  intros Hs Ho Hv Hp Hpn H. unfold from_data in H. destruct (is_compatible n) eqn:Hn; [|discriminate].
  destruct (build_total s ord Ho (valid_merge s Hs) W_plain W_plain_closed eq_refl (S (vdepth v)) n 0 true v) as (t' & E & A); eauto using named_plain.
  { now apply plain_spec. }
  rewrite H in E. injection E as <-. intros x Hx. apply (all_names_nodes _ _ A) in Hx as (H1 & H2 & _).
  apply is_compatible_identifier in H1; [tauto|]. now apply plain_spec.
Qed.

(** ** Bookkeeping *)

Lemma node_of_trans a b c : node_of a b -> node_of b c -> node_of a c.
Proof. intros H1 H2. induction H2; auto. econstructor; eauto. Qed.
Lemma node_of_inv n i cs : node_of n (Node i cs) -> n = Node i cs \/ exists e, In e cs /\ node_of n (snd e).
Proof. intros H. inversion H; subst; eauto. Qed.

Lemma iter_children_ren k new n t : map theight (iter_children (ren k new n t)) = map theight (iter_children t).
Proof.
  unfold iter_children, iter_entries. rewrite ren_cs, before_none_map, !map_map.
  change (fun x => ekey (ren_entry k new n x)) with ekey. apply map_ext. intros e. unfold ren_entry, etree. simpl. apply ren_height.
Qed.
Lemma map_theight_In l l' c : map theight l = map theight l' -> In c l -> exists c', In c' l' /\ theight c = theight c'.
Proof.
  intros E H. apply (in_map theight) in H. rewrite E in H. apply in_map_iff in H as (c' & ? & ?). exists c'. auto.
Qed.
Lemma bookkept_ren t k new n : bookkept t -> bookkept (ren k new n t).
Proof.
  intros [A B C D E]. assert (IC := iter_children_ren k new n t). split.
  - intros e He. rewrite ren_cs in He. apply in_map_iff in He as (e' & <- & He). unfold ren_entry, etree. simpl. rewrite !ren_depth. now apply A.
  - intros e He. rewrite ren_cs in He. apply in_map_iff in He as (e' & <- & He). unfold ren_entry, etree. simpl. rewrite !ren_root. now apply B.
  - unfold is_container. rewrite ren_kind, ren_height. intros H. destruct (C H) as [H1 H2]. split; auto. now rewrite ren_cs, H2.
  - intros c Hc. rewrite ren_height. destruct (map_theight_In _ _ _ IC Hc) as (c' & Hc' & ->). now apply D.
  - unfold is_container. rewrite ren_kind, ren_height. intros H. destruct (E H) as [[H1 H2]|(c & H1 & H2)].
    + left. split; auto. rewrite H2 in IC. destruct (iter_children (ren k new n t)); [auto | discriminate].
    + right. symmetry in IC. destruct (map_theight_In _ _ _ IC H1) as (c' & Hc' & E'). exists c'. split; auto. congruence.
Qed.
Lemma node_of_ren m t : forall k new n, node_of m (ren k new n t) -> exists m' k', node_of m' t /\ m = ren k' new n m'.
Proof.
  induction t as [i cs IH] using tree_ind'. intros k new n H. rewrite Forall_forall in IH.
  destruct (ren k new n (Node i cs)) as [i' cs'] eqn:E. apply node_of_inv in H as [->|(e & He & H)].
  - exists (Node i cs), k. split; [constructor | auto].
  - assert (cs' = map (ren_entry k new n) cs) as -> by (change cs' with (tcs (Node i' cs')); rewrite <- E; apply ren_cs).
    apply in_map_iff in He as (e' & <- & He). unfold ren_entry, etree in H. simpl in H.
    destruct (IH _ He _ _ _ H) as (m' & k' & H1 & H2). exists m', k'. split; auto. econstructor; eauto.
Qed.

Definition booked (d : nat) (r : bool) (t : tree) : Prop :=
  i_depth (ti t) = d /\ i_root (ti t) = r /\ forall n, node_of n t -> bookkept n.

Lemma maxl_In l : l = [] \/ In (maxl l) l.
Proof.
  induction l as [|x l IH]; auto. right. simpl. destruct IH as [->|IH].
  - left. simpl. lia.
  - destruct (Nat.max_spec x (maxl l)) as [[_ ->]|[_ ->]]; auto.
Qed.
Lemma bookkept_inner name d r k t cs : (match k with NSeq _ | NProxy | NDict _ _ => True | _ => False end) ->
  Forall (fun e => booked (S d) false (etree e)) cs -> bookkept (inner name d r k t cs).
Proof.
  intros Hk F. rewrite Forall_forall in F. split.
  - intros e He. apply F in He as [He _]. exact He.
  - intros e He. apply F in He as [_ [He _]]. exact He.
  - unfold is_container, tkind. simpl. destruct k; try destruct Hk; discriminate.
  - intros c Hc. unfold inner, theight, iter_children in *. simpl in *. unfold height_of.
    assert (In (theight c) (map (fun e => theight (etree e)) (iter_entries cs))).
    { apply in_map_iff in Hc as (e & <- & He). apply in_map_iff. exists e. auto. }
    assert (G : Forall (fun x => x <= maxl (map (fun e => theight (etree e)) (iter_entries cs))) (map (fun e => theight (etree e)) (iter_entries cs))) by now apply maxl_le.
    rewrite Forall_forall in G. specialize (G _ H). unfold theight in G at 1. lia.
  - intros _. unfold theight, iter_children. simpl. unfold height_of.
    destruct (maxl_In (map (fun e => theight (etree e)) (iter_entries cs))) as [E|E].
    + left. apply map_eq_nil in E. rewrite E. auto.
    + right. apply in_map_iff in E as (e & E & He). exists (etree e). split; [now apply in_map | now rewrite <- E].
Qed.

Lemma booked_inner name d r k t cs : (match k with NSeq _ | NProxy | NDict _ _ => True | _ => False end) ->
  Forall (fun e => booked (S d) false (etree e)) cs -> booked d r (inner name d r k t cs).
Proof.
  intros Hk F. split; [reflexivity|]. split; [reflexivity|]. intros n Hn. apply node_of_inv in Hn as [->|(e & He & Hn)].
  - now apply bookkept_inner.
  - rewrite Forall_forall in F. now apply (F e He).
Qed.

Lemma build_booked s ord fuel name d r v t : set_like ord -> build s ord fuel name d r v = Ok t -> booked d r t.
Proof.
  intros Ho. apply closed_build; auto.
  - intros. split; [reflexivity|]. split; [reflexivity|]. intros n Hn. apply node_of_inv in Hn as [->|(e & [] & _)].
    split; simpl; try tauto. unfold is_container, tkind. simpl. destruct k; try destruct H; discriminate.
  - intros. apply booked_inner; auto.
  - intros. apply booked_inner; auto. destruct H as [->|(dt & m & ->)]; exact I.
  - intros d0 r0 t0 k new n [A [B C]]. split; [now rewrite ren_depth|]. split; [now rewrite ren_root|].
    intros m Hm. apply node_of_ren in Hm as (m' & k' & H & ->). now apply bookkept_ren, C.
  - intros d0 r0 i cs dt m dt' m' Hk [A [B C]]. split; [exact A|]. split; [exact B|]. intros n Hn. apply node_of_inv in Hn as [->|(e & He & Hn)].
    + destruct (C (Node i cs) (node_refl _)) as [C1 C2 C3 C4 C5]. split; auto.
      * unfold is_container, tkind. simpl. discriminate.
      * intros _. apply C5. unfold is_container, tkind. simpl. now rewrite Hk.
    + apply C. econstructor; eauto.
Qed.

Lemma from_data_booked s ord v n t : set_like ord -> from_data s ord v n = Ok t ->
  i_depth (ti t) = 0 /\ i_root (ti t) = true /\ forall x, node_of x t -> bookkept x.
Proof.
  intros Ho H. unfold from_data in H. destruct (is_compatible n); [|discriminate]. eapply build_booked in H; auto.
Qed.

(** ** Documentation keys have no node *)
Lemma hidden_doc k : is_hidden k = true <-> doc_key k.
Proof.
  unfold doc_key. destruct k; cbn [is_hidden]; try (split; [discriminate | intros (x & E); discriminate]).
  rewrite startswith_spec. unfold hidden_prefix. split; intros (r & E); exists r; [now subst | injection E; auto].
Qed.
Lemma from_data_no_doc_node s ord v n t : set_like ord -> from_data s ord v n = Ok t ->
  forall x e, node_of x t -> In e (tcs x) -> ~ doc_key (ekey e).
Proof.
  intros Ho H. unfold from_data in H. destruct (is_compatible n); [|discriminate].
  assert (G : forall x e, node_of x t -> In e (tcs x) -> is_hidden (ekey e) = false).
  { revert H. apply (closed_build s ord Ho (fun _ _ t => forall x e, node_of x t -> In e (tcs x) -> is_hidden (ekey e) = false)).
    - intros. apply node_of_inv in H0 as [->|(y & [] & _)]. destruct H1.
    - intros name d r k ty cs Hk F x e Hx He. rewrite Forall_forall in *. apply node_of_inv in Hx as [->|(y & Hy & Hx)].
      + simpl in He. now rewrite (Hk e He).
      + eapply F; eauto.
    - intros name d r k ty cs _ Hk F x e Hx He. rewrite Forall_forall in *. apply node_of_inv in Hx as [->|(y & Hy & Hx)].
      + simpl in He. now apply Hk.
      + eapply F; eauto.
    - intros d r t0 k new m IH x e Hx He. apply node_of_ren in Hx as (x' & k' & Hx & ->). rewrite ren_cs in He.
      apply in_map_iff in He as (e' & <- & He). apply (IH x' e' Hx He).
    - intros d r i cs dt m dt' m' _ IH x e Hx He. apply node_of_inv in Hx as [->|(y & Hy & Hx)].
      + apply (IH (Node i cs) e); [constructor | exact He].
      + apply (IH x e); auto. econstructor; eauto. }
  intros x e Hx He Hd. apply hidden_doc in Hd. rewrite (G x e Hx He) in Hd. discriminate.
Qed.

(** ** Equality ignores documentation keys *)
Lemma same_docs_visible d d' : same_but_docs d d' ->
  filter (fun kv => negb (is_hidden (fst kv))) d = filter (fun kv => negb (is_hidden (fst kv))) d' /\ all_str d = all_str d'.
Proof.
  induction 1 as [|e d d' _ [IH IH']|k x d d' Hk _ [IH IH']|k x d d' Hk _ [IH IH']]; simpl; auto.
  - rewrite IH, IH'. auto.
  - rewrite IH. split; [|destruct Hk as (? & ->); simpl; auto].
    assert (E : is_hidden k = true) by now apply hidden_doc. now rewrite E.
  - rewrite IH. split; [|destruct Hk as (? & ->); simpl; auto].
    assert (E : is_hidden k = true) by now apply hidden_doc. now rewrite E.
Qed.
Lemma build_values_visible bld parent d : build_values bld parent d = build_values bld parent (filter (fun kv => negb (is_hidden (fst kv))) d).
Proof.
  induction d as [|[k v] d IH]; simpl; auto. destruct (is_hidden k) eqn:E; simpl; auto. rewrite E, IH. reflexivity.
Qed.
Lemma build_same_docs s ord fuel n d r t kvs kvs' a b :
  limit s kvs = kvs -> limit s kvs' = kvs' -> same_but_docs kvs kvs' ->
  build s ord fuel n d r (VMap MDict t kvs) = Ok a -> build s ord fuel n d r (VMap MDict t kvs') = Ok b ->
  teq s a b = true.
Proof.
  intros L L' Hs Ha Hb. destruct fuel as [|f]; cbn [build] in Ha, Hb; [discriminate|].
  rewrite L in Ha. rewrite L' in Hb. apply same_docs_visible in Hs as [E1 E2].
  assert (forall d : list (key * pyval), (if is_td_strategy s then d else d) = d) as R by (intros; now destruct (is_td_strategy s)).
  rewrite R in Ha, Hb. rewrite build_values_visible in Ha, Hb. rewrite E1 in Ha.
  apply bind_Ok in Ha as (cs & Ha & Ha'). apply bind_Ok in Hb as (cs' & Hb & Hb'). rewrite Ha in Hb. injection Hb as <-.
  injection Ha' as <-. injection Hb' as <-. unfold teq. simpl. unfold is_typed_dict. cbn [m_data init_meta]. rewrite E2. apply heq_refl.
Qed.

(** ** Renaming *)
(** One renaming replaces the prefix; further ones keep the name if the lengths agree. *)
Lemma iterate_replaced (r : bool) (old new suf : string) : (r = true -> suf = "") -> forall k, k = 1 \/ 1 <= k /\ String.length new = String.length old ->
  iterate k (fun n => if r then new else new ++ drop (String.length old) n) (old ++ suf) = new ++ suf.
Proof.
  intros R k K. assert (E : (if r then new else new ++ drop (String.length old) (old ++ suf)) = new ++ suf).
  { destruct r; [rewrite R by auto; now rewrite app_nil_r_s|]. now rewrite drop_app. }
  destruct K as [->|[K L]]; [exact E|]. destruct k as [|k]; [lia|]. cbn [iterate]. rewrite E. clear K E. induction k as [|k IH]; cbn [iterate]; auto.
  replace (if r then new else new ++ drop (String.length old) (new ++ suf)) with (new ++ suf); auto. destruct r; [rewrite R by auto; now rewrite app_nil_r_s|]. now rewrite <- L, drop_app.
Qed.
Definition renames_well (old new : string) (k : nat) : Prop := k = 1 \/ 1 <= k /\ String.length new = String.length old.
Lemma ren_replaced old new t : forall k, renames_well old new k -> (forall n e, node_of n t -> In e (tcs n) -> renames_well old new (snd (fst e))) ->
  names_start_with old t -> (i_root (ti t) = true -> tname t = old) ->
  (forall n e, node_of n t -> In e (tcs n) -> i_root (ti (snd e)) = false) ->
  prefix_replaced old new t (ren k new (String.length old) t).
Proof.
  induction t as [i cs IH] using tree_ind'. intros k K Hu Hn Hr Hp. cbn [ren]. destruct i as [nm d h r kd ty].
  destruct (Hn _ (node_refl _)) as (suf & E). unfold tname in E. simpl in E.
  cbn [i_root i_name with_name i_depth i_height i_kind i_type]. unfold with_name. cbn [i_root i_name i_depth i_height i_kind i_type]. rewrite E, iterate_replaced; auto.
  - apply pr_node. rewrite Forall_forall in IH.
    assert (G' : forall e, In e cs -> prefix_replaced old new (snd e) (ren (k * snd (fst e)) new (String.length old) (snd e))).
    { intros e He. apply (IH e He).
      - destruct (Hu _ e (node_refl _) He) as [M|[M L]]; [rewrite M, Nat.mul_1_r; exact K|]. right. split; auto. destruct K as [->|[K _]]; [lia|]. destruct k; [lia|]. destruct (snd (fst e)); [lia|]. cbn. lia.
      - intros x e' Hx. apply Hu. econstructor; eauto.
      - intros x Hx. apply Hn. econstructor; eauto.
      - intros R. rewrite (Hp (Node (Info nm d h r kd ty) cs) e) in R; [discriminate | constructor | auto].
      - intros x e' Hx. apply Hp. econstructor; eauto. }
    clear - G'. induction cs as [|[[key m] c] cs IHc]; simpl; constructor; simpl in *.
    + split; auto. apply (G' (key, m, c)). auto.
    + apply IHc; auto.
  - intros ->. specialize (Hr eq_refl). unfold tname in Hr. simpl in Hr. rewrite E in Hr. apply (app_inj_l old). now rewrite app_nil_r_s.
Qed.
Lemma rename_replaced new t : (forall n e, node_of n t -> In e (tcs n) -> renames_well (tname t) new (snd (fst e))) -> names_start_with (tname t) t ->
  (forall n e, node_of n t -> In e (tcs n) -> i_root (ti (snd e)) = false) ->
  prefix_replaced (tname t) new t (rename new t).
Proof. intros. apply ren_replaced; auto. now left. Qed.

(** ** Fresh names *)
Lemma number_from_fresh fuel : forall count name used,
  (forall m, In m used -> True) -> fuel = List.length used - (count - 2) -> 2 <= count ->
  (forall j, 2 <= j < count -> In (name ++ str_of_nat j) used) -> In name used -> count - 2 <= List.length used ->
  ~ In (number_from fuel count name used) used.
Proof.
  intros count name used _ E Hc Hj Hn Hl H.
  assert (Hnd : forall k, NoDup (name :: map (fun j => name ++ str_of_nat j) (seq 2 k))).
  { intros k. constructor.
    - rewrite in_map_iff. intros (j & E' & _). rewrite <- (app_nil_r_s name) in E' at 2. apply app_inj_l in E'. now apply str_of_nat_nonnil in E'.
    - apply FinFun.Injective_map_NoDup; [|apply seq_NoDup]. intros a b E'. apply app_inj_l in E'. now apply str_of_nat_inj. }
  revert count E Hc Hj Hl H. induction fuel as [|f IH]; intros count E Hc Hj Hl H; simpl in H.
  - assert (count - 2 = List.length used) by lia.
    assert (I : incl (name :: map (fun j => name ++ str_of_nat j) (seq 2 (List.length used))) used).
    { intros x [<-|Hx]; auto. apply in_map_iff in Hx as (j & <- & Hx). apply in_seq in Hx. apply Hj. lia. }
    apply (NoDup_incl_length (Hnd _)) in I. simpl in I. rewrite map_length, seq_length in I. lia.
  - destruct (mem (name ++ str_of_nat count) used) eqn:M.
    + apply mem_spec in M. apply (IH (S count)); auto; try lia. intros j Hj'. destruct (Nat.eq_dec j count); [now subst | apply Hj; lia].
    + apply mem_false in M. contradiction.
Qed.
Lemma fresh_name_fresh name used : ~ In (fresh_name name used) used.
Proof.
  unfold fresh_name. destruct (mem name used) eqn:M.
  - apply mem_spec in M. apply number_from_fresh; auto; try lia.
  - now apply mem_false in M.
Qed.
