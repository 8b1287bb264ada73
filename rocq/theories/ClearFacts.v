(** Data whose names cannot clash gives a tree whose names cannot clash. *)
From Coq Require Import Ascii String List Bool Arith ZArith Lia Permutation.
From Verif Require Import PyStr PyStrFacts Utils Strategies Docstring Imports Dispatch Values Tree Build Emit TreeFacts SpecNames NamesFacts SpecData BuildFacts BuildInd TotalFacts FuelFacts TreeProofs SeqFacts SmallFacts.
From Verif Require Import SpecMerge MergeFacts GroupFacts SpecTypes SpecSound SoundTree SoundBuild SoundHash SpecCamel SpecUnique UniqueFacts SpecClear.
Import ListNotations.
Local Open Scope string_scope.
Local Open Scope nat_scope.

Section Clear.
  Variable s : strategies.
  Variable ord : set_order.
  Hypothesis Hord : set_like ord.
  Variable v0 : pyval.
  Hypothesis Hv : tidy s v0.
  Hypothesis Hc : clear_data s v0.

  Notation part := (part s v0).
  Notation tree_of := (tree_of s ord).
  Let Same := same_trees s ord Hord v0 Hv.

  Lemma unfixed_part k t l : part (VSeq k t l) -> unfixed s k.
  Proof. intros P F. apply part_sub in P. exact (cd_tuples s v0 Hc k t l P F). Qed.

  (** The children of a list: the trees of its elements, in which the TypedDicts may be replaced by one. *)
  Lemma list_children f d k t l tr : part (VSeq k t l) -> tree_of (S f) d (VSeq k t l) tr ->
    exists chs, represents s ord f (S d) l chs /\ thash s tr = HSet (map (thash s) (map etree (tcs tr))) /\
      ((forall c, In c (map etree (tcs tr)) <-> In c chs) \/
       exists D M tD, merged_seq s ord v0 f (S d) l (map etree (tcs tr)) D M tD /\
         forall c, In c (map etree (tcs tr)) <-> (In c chs /\ is_td s c = false) \/ c = set_meta M tD).
  Proof.
    intros P (name & H). pose proof (unfixed_part _ _ _ P) as U.
    destruct (set_children s ord Hord part (part_el s v0) (part_limit s v0 Hv) (part_once s v0 Hv) (part_keys s v0 Hv) (part_exhaust s v0 Hv) (part_merge s v0) f name d false k t l tr P U H) as (Ek & Ety & chs & R & CS).
    exists chs. split; auto. split.
    { rewrite (tree_seq s tr k Ek). destruct (shash_cases s k (map etree (tcs tr))) as [[F _]|[_ E]]; [contradiction|exact E]. }
    destruct CS as [CS|(D & M & tD & MC & CS)]; [now left|right]. exists D, M, tD. split; auto.
    pose proof (represents_from_good s ord part (part_el s v0) f (S d) k t l chs P R) as FG.
    assert (St : is_td_strategy s = true) by (destruct MC as (_ & _ & _ & (c1 & Hc1 & T1) & _); now apply td_is_strategy in T1).
    destruct (merged_keys_iff s ord v0 Hv f (S d) k t l chs D M tD P FG MC St) as (A & B & C).
    { exact (represents_all s ord part (part_el s v0) (part_keys s v0 Hv) f (S d) k t l chs P R St). }
    destruct MC as (M1 & M2 & M3 & (c1 & Hc1 & T1) & _ & _ & _ & M7 & _).
    split; [auto|]. split; [auto|]. split; [auto|]. split; [auto|]. split; [auto|]. split; [auto|]. split; [auto|]. split; [auto|]. split.
    - apply CS. now right.
    - intros c Hc1'. apply CS in Hc1' as [[Hc' T]|E]; auto. left. split; auto. destruct (FG c Hc') as (x & c0 & Hx & _ & Tx & Rn). exists x, c0. auto.
  Qed.

  (** What a child of a list stands for: an element or all dicts of the list. *)
  Definition merged_source (f d : nat) (l : list pyval) (c : tree) : Prop :=
    exists D tD, part (VMap MDict ty_dict D) /\ tree_of f d (VMap MDict ty_dict D) tD /\ thash s c = thash s tD /\ is_td s c = true /\ is_td s tD = true /\
      tcs c = tcs tD /\ string_dicts l <> [] /\ forall k, has_key k D <-> in_some (string_dicts l) k.
  Definition source (f d : nat) (l : list pyval) (c : tree) : Prop := (exists x, In x l /\ tree_of f d x c) \/ merged_source f d l c.
  Lemma list_sources f d k t l tr : part (VSeq k t l) -> tree_of (S f) d (VSeq k t l) tr ->
    thash s tr = HSet (map (thash s) (map etree (tcs tr))) /\
    (forall c, In c (map etree (tcs tr)) -> source f (S d) l c) /\
    forall x, In x l -> exists tx c, tree_of f (S d) x tx /\ In c (map etree (tcs tr)) /\
      (heq (thash s tx) (thash s c) = true \/ is_td s tx = true /\ merged_source f (S d) l c).
  Proof.
    intros P T. destruct (list_children f d k t l tr P T) as (chs & R & Eh & CS). split; auto.
    assert (El : forall x c, In x l -> tree_of f (S d) x c -> part x) by (intros x c Hx _; eapply part_el; eauto).
    destruct CS as [CS|(D & M & tD & MS & CS)].
    - split; [intros c Hc1; left; apply CS in Hc1; now apply R|]. intros x Hx. destruct (proj2 R x Hx) as (tx & c & Tx & Hc1 & E). exists tx, c. split; auto. split; [now apply CS|]. left. now apply teq_heq.
    - pose proof (merged_td s ord v0 Hv _ _ _ _ _ _ _ MS) as (T1 & T2 & E2 & Ec & CK). pose proof MS as (M1 & M2 & M3 & St & M5 & Ne & DK & _ & _ & _). split.
      + intros c Hc1. apply CS in Hc1 as [[Hc1 _]| ->]; [left; now apply R|right; exists D, tD; auto 10].
      + intros x Hx. destruct (proj2 R x Hx) as (tx & c & Tx & Hc1 & E). destruct (is_td s c) eqn:Tc.
        * exists tx, (set_meta M tD). split; auto. split; [apply CS; now right|]. right. split; [|exists D, tD; auto 10].
          destruct (proj1 R c Hc1) as (y & Hy & Ty). rewrite teq_sym in E. apply teq_heq in E. eapply (heq_td s ord Hord v0 Hv f (S d) (S d) y x c tx); eauto using part_el.
        * exists tx, c. split; auto. split; [apply CS; now left|]. left. now apply teq_heq.
  Qed.
  Lemma source_part f d k t l c : part (VSeq k t l) -> source f d l c -> exists z cz, part z /\ tree_of f d z cz /\ thash s c = thash s cz /\ is_td s c = is_td s cz /\ tcs c = tcs cz /\
    (In z l \/ type_of z = ty_dict /\ exists d0, In d0 (string_dicts l)).
  Proof.
    intros P [(x & Hx & T)|(D & tD & PD & TD & E & T1 & T2 & Ec & Ne & _)].
    - exists x, c. split; [eapply part_el; eauto|]. auto 10.
    - exists (VMap MDict ty_dict D), tD. rewrite T1, T2. do 5 (split; auto). right. split; auto. destruct (string_dicts l) as [|d0 ds]; [congruence|]. exists d0. now left.
  Qed.

  Lemma dict_entries f d mk t kvs tr : part (VMap mk t kvs) -> tree_of (S f) d (VMap mk t kvs) tr ->
    tkind tr = map_kind mk kvs /\ i_type (ti tr) = t /\ map ekey (tcs tr) = map fst kvs /\
    (forall e, In e (tcs tr) -> exists x tx, In (ekey e, x) kvs /\ tree_of f (S d) x tx /\ teq s tx (etree e) = true) /\
    (forall k x, In (k, x) kvs -> exists e tx, In e (tcs tr) /\ ekey e = k /\ tree_of f (S d) x tx /\ teq s tx (etree e) = true).
  Proof.
    intros P (name & H). destruct (map_children_of s ord part (part_data s v0 Hv) (part_once s v0 Hv) (part_keys s v0 Hv) (part_merge s v0) f name d false mk t kvs tr P H) as (A & B & C & D). do 3 (split; auto).
    assert (G : forall e, In e (tcs tr) -> exists x tx, In (ekey e, x) kvs /\ tree_of f (S d) x tx /\ teq s tx (etree e) = true).
    { intros e He. destruct (D e He) as (x & tx & k0 & x0 & c0 & Hx & Tx & Hx0 & T0 & E & R). exists x, tx. split; auto. split; auto. destruct R as [->|(n & ->)]; auto.
      rewrite teq_sym. unfold rename. rewrite teq_ren_l. now rewrite teq_sym. }
    split; auto. intros k x Hx. assert (Hk : In k (map ekey (tcs tr))) by (rewrite C; apply (in_map fst) in Hx; exact Hx). apply in_map_iff in Hk as (e & <- & He).
    destruct (G e He) as (x' & tx & Hx' & Tx & E). exists e, tx. split; auto. split; auto. replace x with x'; auto.
    pose proof (part_once s v0 Hv _ _ _ P) as N. clear -N Hx Hx'. induction kvs as [|[k y] kvs IH]; [destruct Hx|]. cbn [map fst] in N. inversion N as [|? ? N1 N2]; subst. destruct Hx as [E|Hx], Hx' as [E'|Hx'].
    - congruence.
    - injection E as -> _. exfalso. apply N1. apply (in_map fst) in Hx'. exact Hx'.
    - injection E' as -> _. exfalso. apply N1. apply (in_map fst) in Hx. exact Hx.
    - auto.
  Qed.

  Lemma apart_hash x y : apart s x y -> forall f d d' tx ty, part x -> part y -> tree_of f d x tx -> tree_of f d' y ty -> heq (thash s tx) (thash s ty) = true -> False.
  Proof.
    induction 1 as [x y N|fx fy N|mk t kv mk' t' kv' k x Hx N IH|k t l k' t' l' x Hx N A IH|k t l k' t' l' x Hx N|k t l k' t' l' d0 key St Hd Hk N|x y A IH]; intros f d d' tx ty Px Py Tx Ty E.
    - apply N. exact (proj1 (Same f d d' x y tx ty Px Py Tx Ty E)).
    - apply N. rewrite (tree_leaf s ord f d _ _ Tx I), (tree_leaf s ord f d' _ _ Ty I) in E. apply (fun_hash_same s v0 Hv); auto; [exact (part_leaf s v0 (VFun fx) I Px)|exact (part_leaf s v0 (VFun fy) I Py)].
    - destruct f as [|f]; [apply tree_zero in Tx; destruct Tx|].
      destruct (dict_entries f d mk t kv tx Px Tx) as (Ek & _ & _ & _ & Own). destruct (dict_entries f d' mk' t' kv' ty Py Ty) as (Ek' & _ & _ & Src & _).
      rewrite (tree_mapping s tx _ _ Ek), (tree_mapping s ty _ _ Ek') in E. apply heq_set in E as [E _].
      destruct (Own k x Hx) as (e & cx & He & Ke & Cx & Ex). destruct (E _ (in_map _ _ _ He)) as (h & Hh & Eh). apply in_map_iff in Hh as (e' & <- & He').
      destruct (Src e' He') as (y & cy & Hy & Cy & Ey). unfold entry_hash in Eh.
      assert (Q : (typed_map s mk kv -> ekey e' = k) -> heq (thash s (etree e)) (thash s (etree e')) = true -> False).
      { intros K Q. apply (IH _ _ Hy K f (S d) (S d') cx cy); auto; [exact (part_val s v0 _ _ _ _ _ Px Hx)|exact (part_val s v0 _ _ _ _ _ Py Hy)|].
        apply teq_heq in Ex. apply teq_heq in Ey. eapply heq_trans; [exact Ex|]. eapply heq_trans; [exact Q|]. now rewrite heq_sym. }
      destruct (is_td s tx) eqn:Td, (is_td s ty) eqn:Td'; try discriminate; cbn [heq] in Eh; apply andb_true_iff in Eh as [Eh1 Eh2].
      + apply key_eqb_spec in Eh1. apply Q; auto. intros _. congruence.
      + apply Q; auto. intros (-> & T1 & T2). exfalso. assert (is_typed_dict s (init_meta kv) = true) by (apply dict_td; split; auto; now apply td_strategy_iff). unfold is_td, node_is_typed_dict in Td. rewrite Ek in Td. cbn [map_kind] in Td. congruence.
    - destruct f as [|f]; [apply tree_zero in Tx; destruct Tx|].
      destruct (list_sources f d k t l tx Px Tx) as (Eh & _ & Own). destruct (list_sources f d' k' t' l' ty Py Ty) as (Eh' & Src & _).
      rewrite Eh, Eh' in E. apply heq_set in E as [E _]. destruct (Own x Hx) as (cx & c & Cx & Hc1 & Ec).
      assert (Pz : part x) by exact (part_el s v0 _ _ _ _ Px Hx).
      destruct Ec as [Ec|(T1 & _)].
      2:{ destruct (td_value s ord f (S d) x cx Cx T1) as (ty0 & kv0 & -> & _ & St & _). apply td_strategy_iff in St. exact (N St). }
      destruct (E _ (in_map _ _ _ Hc1)) as (h & Hh & E'). apply in_map_iff in Hh as (c' & <- & Hc').
      assert (E0 : heq (thash s cx) (thash s c') = true) by (eapply heq_trans; eauto).
      destruct (Src c' Hc') as [(y & Hy & Cy)|(D & tD & PD & TD & E2 & _ & Td & _)].
      + exact (IH y Hy f (S d) (S d') cx c' Pz (part_el s v0 _ _ _ _ Py Hy) Cx Cy E0).
      + rewrite E2, heq_sym in E0. pose proof (heq_td s ord Hord v0 Hv f (S d') (S d) _ x tD cx PD Pz TD Cx Td E0) as T1.
        destruct (td_value s ord f (S d) x cx Cx T1) as (ty0 & kv0 & -> & _ & St & _). apply td_strategy_iff in St. exact (N St).
    - destruct f as [|f]; [apply tree_zero in Tx; destruct Tx|].
      destruct (list_sources f d k t l tx Px Tx) as (Eh & _ & Own). destruct (list_sources f d' k' t' l' ty Py Ty) as (Eh' & Src & _).
      rewrite Eh, Eh' in E. apply heq_set in E as [E _]. destruct (Own x Hx) as (cx & c & Cx & Hc1 & Ec).
      assert (Pz : part x) by exact (part_el s v0 _ _ _ _ Px Hx).
      destruct (E _ (in_map _ _ _ Hc1)) as (h & Hh & E'). apply in_map_iff in Hh as (c' & <- & Hc').
      destruct (source_part f (S d') k' t' l' c' Py (Src c' Hc')) as (z & cz & Zp & Zt & Zh & _ & _ & Zi). rewrite Zh in E'.
      assert (I : ty_id (type_of x) = ty_id (type_of z)).
      { destruct Ec as [Ec|(T1 & D & tD & PD & TD & E2 & _)].
        - refine (proj1 (Same f (S d) (S d') x z cx cz Pz Zp Cx Zt _)). eapply heq_trans; eauto.
        - destruct (td_value s ord f (S d) x cx Cx T1) as (ty0 & kv0 & -> & _). pose proof (part_dict s v0 Hv _ _ _ Pz) as Q0. cbn [map_class] in Q0. subst ty0. rewrite E2 in E'.
          exact (proj1 (Same f (S d) (S d') _ z tD cz PD Zp TD Zt E')). }
      destruct Zi as [Zi|(Zi & d0 & Hd0)]; [exact (N z Zi I)|]. apply string_dicts_In in Hd0 as (_ & ty0 & Hd0). apply (N _ Hd0).
      pose proof (part_dict s v0 Hv MDict ty0 d0 (part_el s v0 _ _ _ _ Py Hd0)) as Q0. cbn [map_class] in Q0. subst ty0. rewrite I, Zi. reflexivity.
    - destruct f as [|f]; [apply tree_zero in Tx; destruct Tx|].
      destruct (list_sources f d k t l tx Px Tx) as (Eh & Src0 & Own). destruct (list_sources f d' k' t' l' ty Py Ty) as (Eh' & Src & _).
      rewrite Eh, Eh' in E. apply heq_set in E as [E _]. pose proof (proj1 (string_dicts_In _ _) Hd) as (Ks & ty0 & Hd1). destruct (Own _ Hd1) as (cx & c & Cx & Hc1 & Ec).
      assert (Pz : part (VMap MDict ty0 d0)) by exact (part_el s v0 _ _ _ _ Px Hd1). apply td_strategy_iff in St.
      pose proof (tree_td s ord f (S d) _ ty0 d0 cx Cx eq_refl Ks St) as Tcx.
      assert (Nd : ~ doc_key key) by (apply in_map_iff in Hk as ([k1 y] & <- & Hy); eapply part_keys; eauto).
      (* the child that stands for the dict has the key *)
      assert (MK : forall k0 t0 l0 f0 d1 c0, part (VSeq k0 t0 l0) -> merged_source f0 d1 l0 c0 -> child_key c0 key <-> in_some (string_dicts l0) key).
      { intros k0 t0 l0 f0 d1 c0 _ (D & tD & PD & TD & _ & _ & TtD & Etc & _ & DK). unfold child_key. rewrite Etc. change (child_key tD key <-> in_some (string_dicts l0) key). rewrite <- DK.
        eapply (td_keys s ord part (part_keys s v0 Hv)); eauto. }
      assert (In1 : in_some (string_dicts l) key) by (split; eauto).
      assert (K : is_td s c = true /\ child_key c key).
      { assert (M1 : merged_source f (S d) l c -> is_td s c = true /\ child_key c key) by (intros M1; split; [destruct M1 as (? & ? & _ & _ & _ & ? & _); auto|now apply (MK _ _ _ _ _ _ Px M1)]).
        destruct Ec as [Ec|(_ & M)]; auto. destruct (Src0 c Hc1) as [(x & Hx & Tc)|M]; auto.
        assert (Tc1 : is_td s c = true) by exact (heq_td s ord Hord v0 Hv f (S d) (S d) _ x cx c Pz (part_el s v0 _ _ _ _ Px Hx) Cx Tc Tcx Ec).
        split; auto. apply (td_heq_keys s cx c Tcx Tc1 Ec). eapply (td_keys s ord part (part_keys s v0 Hv)); eauto. }
      destruct (E _ (in_map _ _ _ Hc1)) as (h & Hh & E'). apply in_map_iff in Hh as (c' & <- & Hc'). destruct K as [Tc Kc].
      destruct (source_part f (S d) k t l c Px (Src0 c Hc1)) as (z & cz & Zp & Zt & Zh & Ztd & _ & _).
      destruct (source_part f (S d') k' t' l' c' Py (Src c' Hc')) as (z' & cz' & Zp' & Zt' & Zh' & Ztd' & _ & _).
      assert (Tc' : is_td s c' = true). { rewrite Ztd'. rewrite Ztd in Tc. rewrite Zh, Zh' in E'. exact (heq_td s ord Hord v0 Hv f (S d) (S d') z z' cz cz' Zp Zp' Zt Zt' Tc E'). }
      apply (td_heq_keys s c c' Tc Tc' E') in Kc.
      destruct (Src c' Hc') as [(y & Hy & Cy)|M].
      + destruct (td_value s ord f (S d') y c' Cy Tc') as (t1 & kv1 & -> & Ky & _). apply (N kv1); [apply string_dicts_In; eauto|].
        eapply (td_keys s ord part (part_keys s v0 Hv)) in Kc; [exact Kc|exact (part_el s v0 _ _ _ _ Py Hy)|exact Cy|auto|reflexivity].
      + apply (MK _ _ _ _ _ _ Py M) in Kc as (_ & d1 & Hd' & Hk'). exact (N d1 Hd' Hk').
    - rewrite heq_sym in E. exact (IH f d' d ty tx Py Px Ty Tx E).
  Qed.

  (** ** The nodes of the tree *)
  Definition is_declared (t : tree) : bool := match tkind t with NFun _ | NSeq _ | NProxy | NDict _ _ => true | _ => false end.
  Definition sep (n : tree) : Prop :=
    match tkind n with
    | NProxy | NDict _ _ =>
        NoDup (map ekey (tcs n)) /\
        (forall e, In e (tcs n) -> is_declared (etree e) = false -> perm s (etree e) = false /\ tcs (etree e) = []) /\
        (forall e, In e (tcs n) -> is_declared (etree e) = true -> exists k, ekey e = KStr k /\ begins ascii_letter k) /\
        (forall e e' k k' w w', In e (tcs n) -> In e' (tcs n) -> is_declared (etree e) = true -> is_declared (etree e') = true ->
           ekey e = KStr k -> ekey e' = KStr k' -> k <> k' -> camel k w -> camel k' w' -> ~ extends w w') /\
        (forall e e', In e (tcs n) -> In e' (tcs n) -> is_declared (etree e) = true -> ekey e <> ekey e' -> teq s (etree e) (etree e') = false)
    | NSeq k => ~ fixed_kind s k
    | _ => True
    end.
  Lemma declared_ren k new len t : is_declared (ren k new len t) = is_declared t.
  Proof. unfold is_declared. now rewrite ren_kind. Qed.
  Lemma sep_ren n k new len : sep n -> sep (ren k new len n).
  Proof.
    unfold sep. rewrite ren_kind, ren_cs.
    assert (G : NoDup (map ekey (tcs n)) /\
        (forall e, In e (tcs n) -> is_declared (etree e) = false -> perm s (etree e) = false /\ tcs (etree e) = []) /\
        (forall e, In e (tcs n) -> is_declared (etree e) = true -> exists k, ekey e = KStr k /\ begins ascii_letter k) /\
        (forall e e' k k' w w', In e (tcs n) -> In e' (tcs n) -> is_declared (etree e) = true -> is_declared (etree e') = true ->
           ekey e = KStr k -> ekey e' = KStr k' -> k <> k' -> camel k w -> camel k' w' -> ~ extends w w') /\
        (forall e e', In e (tcs n) -> In e' (tcs n) -> is_declared (etree e) = true -> ekey e <> ekey e' -> teq s (etree e) (etree e') = false) ->
        NoDup (map ekey (map (ren_entry k new len) (tcs n))) /\
        (forall e, In e (map (ren_entry k new len) (tcs n)) -> is_declared (etree e) = false -> perm s (etree e) = false /\ tcs (etree e) = []) /\
        (forall e, In e (map (ren_entry k new len) (tcs n)) -> is_declared (etree e) = true -> exists k, ekey e = KStr k /\ begins ascii_letter k) /\
        (forall e e' k0 k' w w', In e (map (ren_entry k new len) (tcs n)) -> In e' (map (ren_entry k new len) (tcs n)) -> is_declared (etree e) = true -> is_declared (etree e') = true ->
           ekey e = KStr k0 -> ekey e' = KStr k' -> k0 <> k' -> camel k0 w -> camel k' w' -> ~ extends w w') /\
        (forall e e', In e (map (ren_entry k new len) (tcs n)) -> In e' (map (ren_entry k new len) (tcs n)) -> is_declared (etree e) = true -> ekey e <> ekey e' -> teq s (etree e) (etree e') = false)).
    { intros (A & B & C & D & E). split; [now rewrite map_map|]. split; [|split; [|split]].
      - intros e He Ce. apply in_map_iff in He as (e0 & <- & He). unfold ren_entry, etree in *. cbn [snd] in *. rewrite declared_ren in Ce. destruct (B e0 He Ce) as [B1 B2]. rewrite perm_ren. split; auto. rewrite ren_cs. unfold etree in B2. now rewrite B2.
      - intros e He Ce. apply in_map_iff in He as (e0 & <- & He). unfold ren_entry, etree in *. cbn [snd] in *. rewrite declared_ren in Ce. exact (C e0 He Ce).
      - intros e e' k0 k' w w' He He' Ce Ce'. apply in_map_iff in He as (e0 & <- & He). apply in_map_iff in He' as (e1 & <- & He'). unfold ren_entry, etree in *. cbn [snd] in *. rewrite declared_ren in *. exact (D e0 e1 k0 k' w w' He He' Ce Ce').
      - intros e e' He He' Ce. apply in_map_iff in He as (e0 & <- & He). apply in_map_iff in He' as (e1 & <- & He'). unfold ren_entry, etree in *. cbn [snd] in *. rewrite declared_ren in *. rewrite teq_ren_l, teq_ren_r. exact (E e0 e1 He He' Ce). }
    destruct (tkind n); auto.
  Qed.
  Lemma sep_clear n : sep n -> clear_node s n.
  Proof.
    unfold sep, clear_node. intros H.
    assert (G : NoDup (map ekey (tcs n)) /\
        (forall e, In e (tcs n) -> is_declared (etree e) = false -> perm s (etree e) = false /\ tcs (etree e) = []) /\
        (forall e, In e (tcs n) -> is_declared (etree e) = true -> exists k, ekey e = KStr k /\ begins ascii_letter k) /\
        (forall e e' k k' w w', In e (tcs n) -> In e' (tcs n) -> is_declared (etree e) = true -> is_declared (etree e') = true ->
           ekey e = KStr k -> ekey e' = KStr k' -> k <> k' -> camel k w -> camel k' w' -> ~ extends w w') /\
        (forall e e', In e (tcs n) -> In e' (tcs n) -> is_declared (etree e) = true -> ekey e <> ekey e' -> teq s (etree e) (etree e') = false) ->
        clear_mapping s (tcs n)).
    { intros (A & B & C & D & E).
      assert (L : forall e, In e (tcs n) -> declared_inside s (etree e) -> is_declared (etree e) = true).
      { intros e He (y & Hy & P). destruct (is_declared (etree e)) eqn:K; auto. exfalso. destruct (B e He K) as [B1 B2]. destruct (etree e) as [i cs]. cbn [tcs] in B2. subst cs.
        apply node_of_inv in Hy as [->|(e0 & [] & _)]. congruence. }
      assert (O : forall e, In e (tcs n) -> declared_inside s (etree e) -> only_one s (tcs n) e).
      { intros e He Le e' He' N. apply E; auto. }
      split; auto.
      - intros e e' w w' He He' Le Le' N _ W W'. destruct W as [k w O1 K Cw|ds F]; [|exfalso; auto]. destruct W' as [k' w' O1' K' Cw'|ds F]; [|exfalso; auto].
        apply (D e e' k k' w w'); auto. congruence.
      - intros e x e' He Le F. exfalso. auto. }
    destruct (tkind n) as [| | | | | |[]| |]; auto. intros T. exfalso. apply H. split; auto.
  Qed.

  Lemma tree_declared f d x t : tree_of f d x t -> is_declared t = true <-> ~ plain_leaf x.
  Proof.
    intros (name & H). destruct x as [| | | | | | |k t0 l|k t0 kvs]; destruct f as [|f]; cbn [build] in H; try (unfold leaf in H; destruct (is_compatible name); [injection H as <-; cbn; solve [split; [discriminate|intros N; exfalso; apply N; exact I]|split; [intros _ []|reflexivity]] | discriminate]).
    - destruct (negb (is_compatible name)); discriminate.
    - destruct (negb (is_compatible name)); [discriminate|]. apply bind_Ok in H as (cs & _ & E). injection E as <-. cbn. split; auto.
    - destruct k; try discriminate. destruct (negb (is_compatible name)); discriminate.
    - destruct k; [|destruct (negb (is_compatible name)); [discriminate|]]; apply bind_Ok in H as (cs & _ & E); injection E as <-; cbn; split; auto.
  Qed.
  Lemma teq_declared a b : teq s a b = true -> is_declared a = is_declared b.
  Proof.
    unfold teq, is_declared. intros H. apply andb_true_iff in H as [H _]. apply Nat.eqb_eq in H. destruct (tkind a) as [| | | | | |[]| |], (tkind b) as [| | | | | |[]| |]; auto; discriminate H.
  Qed.
  Lemma part_together k t d e e' : part (VMap k t d) -> In e d -> In e' d -> together s v0 e e'.
  Proof.
    intros [H|(D & E & _ & _ & _ & St & k0 & t0 & l & Hl & R)] He He'; [exact (together_dict s v0 e e' k t d H He He')|]. injection E as -> -> ->. destruct e as [k1 x1], e' as [k2 x2].
    destruct (R _ _ He) as (d1 & Hd1 & H1). destruct (R _ _ He') as (d2 & Hd2 & H2). apply (together_rows s v0 _ _ k0 t0 l d1 d2); auto. now apply td_strategy_iff.
  Qed.
  Lemma part_letter k t d key x : part (VMap k t d) -> In (key, x) d -> ~ plain_leaf x -> exists n, key = KStr n /\ begins ascii_letter n.
  Proof.
    intros [H|(D & E & _ & _ & _ & St & k0 & t0 & l & Hl & R)] He L; [eapply (cd_letter s v0 Hc); eauto|]. injection E as -> -> ->.
    destruct (R _ _ He) as (d1 & Hd1 & H1). apply string_dicts_In in Hd1 as (_ & ty & Hd1). eapply (cd_letter s v0 Hc); [|exact H1|exact L].
    eapply sub_trans; [eapply sub_seq; [exact Hd1|apply sub_refl]|exact Hl].
  Qed.
  Lemma leaf_tree f d x t : plain_leaf x -> tree_of f d x t -> perm s t = false /\ tcs t = [].
  Proof.
    intros L (name & H). destruct x; try contradiction; destruct f; cbn [build] in H; unfold leaf in H; destruct (is_compatible name); try discriminate; injection H as <-; split; reflexivity.
  Qed.

  Lemma renamed_nodes c c0 : renamed c c0 -> (forall n, node_of n c0 -> sep n) -> forall n, node_of n c -> sep n.
  Proof. intros [->|(new & ->)] H n Hn; auto. apply node_of_ren in Hn as (m & k & Hm & ->). now apply sep_ren, H. Qed.
  Lemma set_meta_nodes M c : (forall n, node_of n c -> sep n) -> forall n, node_of n (set_meta M c) -> sep n.
  Proof.
    intros H n Hn. destruct (set_meta_cases M c) as [Es|(d & m & d' & m' & E & Es)]; rewrite Es in Hn; auto. destruct c as [i cs]. cbn [ti tcs] in *. apply node_of_inv in Hn as [->|(e & He & Hn)].
    - specialize (H _ (node_refl _)). unfold sep, tkind in *. cbn [ti tcs with_kind i_kind] in *. rewrite E in H. exact H.
    - apply H. econstructor; eauto.
  Qed.

  Theorem built_sep : forall f name d root v t, part v -> build s ord f name d root v = Ok t -> forall n, node_of n t -> sep n.
  Proof.
    induction f as [|f IH]; intros name d root v t P H n Hn.
    - assert (L : is_leaf v /\ tcs t = [] /\ is_container t = false).
      { destruct v; cbn [build] in H; try (unfold leaf in H; destruct (is_compatible name); [injection H as <-; cbn; auto | discriminate]); [destruct (negb (is_compatible name)); discriminate|]. destruct k; try discriminate. destruct (negb (is_compatible name)); discriminate. }
      destruct L as (_ & Ec & K). destruct t as [i cs]. cbn [tcs] in Ec. subst cs. apply node_of_inv in Hn as [->|(e & [] & _)]. unfold sep, is_container in *. destruct (tkind _); auto; discriminate.
    - assert (L : is_leaf v \/ ~ is_leaf v) by (destruct v; cbn [is_leaf]; auto). destruct L as [L|L].
      { assert (G : tcs t = [] /\ is_container t = false).
        { destruct v; try contradiction; cbn [build] in H; unfold leaf in H; destruct (is_compatible name); try discriminate; injection H as <-; cbn; auto. }
        destruct G as (Ec & K). destruct t as [i cs]. cbn [tcs] in Ec. subst cs. apply node_of_inv in Hn as [->|(e & [] & _)]. unfold sep, is_container in *. destruct (tkind _); auto; discriminate. }
      destruct v as [| | | | | | |k ty l|k ty kvs]; try (exfalso; apply L; exact I).
      + destruct (seq_children s ord Hord v0 Hv f name d root k ty l t P H) as (Ek & _ & _ & CS). destruct t as [i cs]. apply node_of_inv in Hn as [->|(e & He & Hn)].
        { unfold sep. rewrite Ek. exact (unfixed_part _ _ _ P). }
        cbn [tcs] in CS. assert (Hc1 : In (etree e) (map etree cs)) by now apply in_map.
        assert (PC : plain_child s ord f (S d) l (etree e) -> sep n).
        { intros (x & c0 & Hx & (nm & Tx) & R). apply (renamed_nodes _ _ R); auto. apply (IH nm (S d) false x c0); auto. exact (part_el s v0 _ _ _ _ P Hx). }
        destruct CS as [[A _]|(D & M & tD & MS)]; [apply PC, A, Hc1|].
        pose proof MS as ((nm & TD) & PD & _ & _ & _ & _ & _ & _ & _ & Ch). destruct (Ch _ Hc1) as [[A _]|A]; [now apply PC|].
        change (snd e) with (etree e) in Hn. rewrite A in Hn. apply (set_meta_nodes M tD); auto. apply (IH nm (S d) false _ tD PD TD).
      + destruct (map_children_of s ord part (part_data s v0 Hv) (part_once s v0 Hv) (part_keys s v0 Hv) (part_merge s v0) f name d root k ty kvs t P H) as (Ek & _ & Kc & Ch). rename k into mk.
        destruct t as [i cs]. cbn [tcs] in *. apply node_of_inv in Hn as [->|(e & He & Hn)].
        2:{ destruct (Ch e He) as (x & tx & k0 & x0 & c0 & Hx & Tx & Hx0 & (nm & T0) & _ & R). apply (renamed_nodes _ _ R); auto. apply (IH nm (S d) false x0 c0); auto. exact (part_val s v0 _ _ _ _ _ P Hx0). }
        assert (Own : forall e, In e cs -> exists x tx, In (ekey e, x) kvs /\ tree_of f (S d) x tx /\ teq s tx (etree e) = true).
        { intros e He. destruct (Ch e He) as (x & tx & k0 & x0 & c0 & Hx & Tx & Hx0 & T0 & E & R). exists x, tx. split; auto. split; auto. destruct R as [->|(nm & ->)]; auto. unfold rename. now rewrite teq_ren_r. }
        assert (Con : forall e x tx, In e cs -> In (ekey e, x) kvs -> tree_of f (S d) x tx -> teq s tx (etree e) = true -> is_declared (etree e) = true -> ~ plain_leaf x).
        { intros e x tx He Hx Tx E C. apply (tree_declared f (S d) x tx Tx). now rewrite (teq_declared _ _ E). }
        unfold sep. rewrite Ek. cbn [tcs].
        match goal with |- match _ with _ => _ end => match goal with |- context [NoDup ?a /\ ?b] => enough (G : NoDup a /\ b) by (destruct mk; exact G) end end.
        split; [rewrite Kc; exact (part_once s v0 Hv _ _ _ P)|]. split; [|split; [|split]].
        * intros e He C. destruct (Ch e He) as (x & tx & k0 & x0 & c0 & Hx & Tx & Hx0 & T0 & E & R).
          assert (C0 : is_declared c0 = false) by (destruct R as [R|(nm & R)]; rewrite R in C; [exact C|unfold rename in C; now rewrite declared_ren in C]).
          assert (Lx : plain_leaf x0). { destruct (tree_declared f (S d) x0 c0 T0) as [_ G]. destruct x0; try exact I; (rewrite G in C0; [discriminate|intros []]). }
          destruct (leaf_tree f (S d) x0 c0 Lx T0) as [G1 G2]. destruct R as [->|(nm & ->)]; auto. unfold rename. rewrite perm_ren, ren_cs, G2. auto.
        * intros e He C. destruct (Own e He) as (x & tx & Hx & Tx & E). apply (part_letter _ _ _ _ _ P Hx). exact (Con e x tx He Hx Tx E C).
        * intros e e' k k' w w' He He' C C' K K' N. destruct (Own e He) as (x & tx & Hx & Tx & E). destruct (Own e' He') as (x' & tx' & Hx' & Tx' & E').
          rewrite K in Hx. rewrite K' in Hx'. apply (cd_words s v0 Hc k k' x x'); auto; [exact (part_together _ _ _ _ _ P Hx Hx')| |].
          -- rewrite <- K in Hx. exact (Con e x tx He Hx Tx E C).
          -- rewrite <- K' in Hx'. exact (Con e' x' tx' He' Hx' Tx' E' C').
        * intros e e' He He' C N. destruct (teq s (etree e) (etree e')) eqn:T; auto. exfalso. destruct (Own e He) as (x & tx & Hx & Tx & E). destruct (Own e' He') as (x' & tx' & Hx' & Tx' & E').
          assert (C' : is_declared (etree e') = true) by (now rewrite <- (teq_declared _ _ T)).
          pose proof (Con e x tx He Hx Tx E C) as Lx. pose proof (Con e' x' tx' He' Hx' Tx' E' C') as Lx'.
          destruct (part_letter _ _ _ _ _ P Hx Lx) as (k & K & _). destruct (part_letter _ _ _ _ _ P Hx' Lx') as (k' & K' & _).
          assert (A : apart s x x'). { apply (cd_apart s v0 Hc k k'); auto; [rewrite <- K, <- K'; exact (part_together _ _ _ _ _ P Hx Hx')|]. intros ->. apply N. congruence. }
          apply (apart_hash x x' A f (S d) (S d) tx tx' (part_val s v0 _ _ _ _ _ P Hx) (part_val s v0 _ _ _ _ _ P Hx') Tx Tx').
          apply teq_heq. eapply teq_trans; [exact E|]. eapply teq_trans; [exact T|]. now rewrite teq_sym.
  Qed.
  Theorem data_clear n t : from_data s ord v0 n = Ok t -> clear_names s t.
  Proof.
    intros H x Hx. apply sep_clear. unfold from_data in H. destruct (is_compatible n); [|discriminate]. eapply built_sep; eauto. left. apply sub_refl.
  Qed.
End Clear.
