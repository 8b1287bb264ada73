(** Decision procedures for the conditions of SpecSound.v, for examples. *)
From Coq Require Import Ascii String List Bool Arith ZArith Lia.
From Verif Require Import PyStr PyStrFacts Utils Strategies Docstring Imports Dispatch Values Tree Build TreeFacts TreeProofs SpecNames NamesFacts SpecData SpecMerge SpecTypes SpecEmit BuildFacts EmitFacts MergeFacts GroupFacts SpecSound SoundPrint SoundRead Samples SampleEmit.
Import ListNotations.
Local Open Scope string_scope.
Local Open Scope nat_scope.

Definition seqkind_eqb (a b : seqkind) : bool :=
  match a, b with KList, KList | KTuple, KTuple | KSet, KSet | KIter, KIter | KSeries, KSeries => true | _, _ => false end.
Definition mapkind_eqb (a b : mapkind) : bool := match a, b with MDict, MDict | MProxy, MProxy => true | _, _ => false end.
Lemma seqkind_eqb_spec a b : seqkind_eqb a b = true -> a = b. Proof. destruct a, b; cbn; congruence. Qed.
Lemma mapkind_eqb_spec a b : mapkind_eqb a b = true -> a = b. Proof. destruct a, b; cbn; congruence. Qed.

Fixpoint forall2b {A B} (p : A -> B -> bool) (l : list A) (l' : list B) : bool :=
  match l, l' with [], [] => true | x :: r, y :: r' => p x y && forall2b p r r' | _, _ => false end.
Definition same_functionb (f g : pyfun) : bool :=
  match f_sig f, f_sig g with
  | None, None => true
  | Some (p, n), Some (q, m) => Bool.eqb (f_lambda f) (f_lambda g) && if f_lambda f then Nat.eqb n m else String.eqb p q
  | _, _ => false
  end.
Lemma same_functionb_spec f g : same_functionb f g = true <-> same_function f g.
Proof.
  unfold same_functionb, same_function. destruct (f_sig f) as [[p n]|], (f_sig g) as [[q m]|]; try (split; [discriminate|tauto]); [|tauto].
  rewrite andb_true_iff, eqb_true_iff. destruct (f_lambda f); [rewrite Nat.eqb_eq|rewrite String.eqb_eq]; tauto.
Qed.
Fixpoint coversb (n : nat) (x y : pyval) : bool :=
  match n with
  | 0 => false
  | S n =>
    match x, y with
    | VStr _, VStr _ => true
    | VInst t, VInst u => type_eqb t u
    | VFun f, VFun g => same_functionb f g
    | VClass m a, VClass m' b => type_eqb m m' && String.eqb a b
    | VModule t, VModule u | VIO t, VIO u => type_eqb t u
    | VNdarray t a, VNdarray u b => type_eqb t u && String.eqb a b
    | VSeq k t l, VSeq k' t' l' => seqkind_eqb k k' && type_eqb t t' &&
        match k with KTuple => forall2b (coversb n) l l' | _ => forallb (fun y => existsb (fun x => coversb n x y) l) l' end
    | VMap k t d, VMap k' t' d' => mapkind_eqb k k' && type_eqb t t' && forallb (fun kv => dmem (fst kv) d') d && forallb (fun kv => dmem (fst kv) d) d' &&
        forallb (fun kv' => existsb (fun kv => key_eqb (fst kv) (fst kv') && coversb n (snd kv) (snd kv')) d) d'
    | _, _ => false
    end
  end.
Lemma coversb_spec n : forall x y, coversb n x y = true -> covers x y.
Proof.
  induction n as [|n IH]; [discriminate|]. intros x y H.
  destruct x as [|t| |m a|t|t|t a|k t l|k t d], y as [|u| |m' b|u|u|u b|k' t' l'|k' t' d']; try discriminate; cbn [coversb] in H.
  - now apply cov_instance.
  - apply type_eqb_spec in H. subst. constructor.
  - apply cov_fun. now apply same_functionb_spec.
  - apply andb_true_iff in H as [H1 H2]. apply type_eqb_spec in H1. apply String.eqb_eq in H2. subst. constructor.
  - apply type_eqb_spec in H. subst. constructor.
  - apply type_eqb_spec in H. subst. constructor.
  - apply andb_true_iff in H as [H1 H2]. apply type_eqb_spec in H1. apply String.eqb_eq in H2. subst. constructor.
  - apply andb_true_iff in H as [H H3]. apply andb_true_iff in H as [H1 H2]. apply seqkind_eqb_spec in H1. apply type_eqb_spec in H2. subst.
    assert (G : k' <> KTuple -> forallb (fun y => existsb (fun x => coversb n x y) l) l' = true -> covers (VSeq k' t' l) (VSeq k' t' l')).
    { intros N F. apply cov_seq; auto. rewrite forallb_forall in F. intros y Hy. specialize (F y Hy). apply existsb_exists in F as (x & Hx & Hc). eauto. }
    destruct k'; try (apply G; [discriminate|exact H3]). apply cov_tuple. clear G. revert l' H3. induction l as [|x l IHl]; intros [|y l'] H; try discriminate; constructor.
    + cbn [forall2b] in H. apply andb_true_iff in H as [H _]. auto.
    + cbn [forall2b] in H. apply andb_true_iff in H as [_ H]. auto.
  - apply andb_true_iff in H as [H H5]. apply andb_true_iff in H as [H H4]. apply andb_true_iff in H as [H H3]. apply andb_true_iff in H as [H1 H2].
    apply mapkind_eqb_spec in H1. apply type_eqb_spec in H2. subst. rewrite forallb_forall in H3, H4, H5. apply cov_map.
    + intros key. unfold has_key. split; intros Hk; apply in_map_iff in Hk as (kv & <- & Hkv); apply dmem_spec; auto.
    + intros key y Hy. specialize (H5 _ Hy). apply existsb_exists in H5 as ([k0 x] & Hx & E). cbn [fst snd] in E. apply andb_true_iff in E as [E1 E2]. apply key_eqb_spec in E1. subst. eauto.
Qed.

Definition fixedb (s : strategies) (k : seqkind) : bool := seqkind_eqb k KTuple && match s_tuple s with TFixed => true | _ => false end.
Lemma fixedb_spec s k : fixedb s k = true <-> fixed_kind s k.
Proof. unfold fixedb, fixed_kind. destruct k, (s_tuple s); cbn; split; try discriminate; try tauto; intros []; congruence. Qed.
Definition typed_mapb (s : strategies) (k : mapkind) (d : list (key * pyval)) : bool := mapkind_eqb k MDict && is_td_strategy s && all_str d.
Lemma typed_mapb_spec s k d : typed_mapb s k d = true -> typed_map s k d.
Proof. unfold typed_mapb. rewrite !andb_true_iff. intros [[A B] C]. split; [now apply mapkind_eqb_spec|]. split; [unfold is_td_strategy in B; destruct (s_dict s); congruence|]. now apply string_keys_all. Qed.
Definition plain_datab (s : strategies) (v : pyval) : bool :=
  forallb (fun x => match x with
     | VFun f => match f_sig f with Some (p, _) => str_forall (fun c => negb (Ascii.eqb (ascii_of_nat 10) c)) p && startswith "(" p | None => true end
     | VSeq k _ _ => negb (seqkind_eqb k KIter)
     | VMap k t _ => type_eqb t (map_class k)
     | _ => true end) (subs v) &&
  forallb (fun x => forallb (fun y => match x, y with
     | VSeq k t _, VSeq k' t' _ => negb (Bool.eqb (fixedb s k) (fixedb s k')) || (seqkind_eqb k k' && type_eqb t t')
     | VMap k _ d, VMap k' _ d' => typed_mapb s k d || typed_mapb s k' d' || mapkind_eqb k k'
     | VFun f, VFun g => negb (same_functionb f g) || Nat.eqb (ty_id (f_type f)) (ty_id (f_type g))
     | _, _ => true end) (subs v)) (subs v).
Lemma plain_datab_spec s v : plain_datab s v = true -> plain_data s v.
Proof.
  unfold plain_datab. rewrite andb_true_iff, !forallb_forall. intros [H1 H2]. split; [|split; [|split]].
  - intros x Hx. specialize (H1 x (sub_subs _ _ Hx)). destruct x; auto; try discriminate.
    + destruct (f_sig f) as [[p n]|]; auto. apply andb_true_iff in H1 as [H0 H1]. split; [exact H0|]. destruct p as [|c p]; [discriminate|]. cbn [startswith] in H1. apply andb_true_iff in H1 as [H1 _]. apply Ascii.eqb_eq in H1. subst c. now exists p.
    + intros ->. discriminate.
    + now apply type_eqb_spec.
  - intros k t l k' t' l' A B F. specialize (H2 _ (sub_subs _ _ A)). rewrite forallb_forall in H2. specialize (H2 _ (sub_subs _ _ B)). cbn beta iota in H2.
    apply orb_true_iff in H2 as [H2|H2].
    + exfalso. apply negb_true_iff in H2. rewrite <- !fixedb_spec in F. destruct (fixedb s k), (fixedb s k'); try discriminate; destruct F as [F1 F2]; (now specialize (F1 eq_refl)) || (now specialize (F2 eq_refl)).
    + apply andb_true_iff in H2 as [C D]. split; [now apply seqkind_eqb_spec|now apply type_eqb_spec].
  - intros k t l k' t' l' A B F F'. specialize (H2 _ (sub_subs _ _ A)). rewrite forallb_forall in H2. specialize (H2 _ (sub_subs _ _ B)). cbn beta iota in H2.
    apply orb_true_iff in H2 as [H2|H2]; [|now apply mapkind_eqb_spec]. exfalso. apply orb_true_iff in H2 as [H2|H2]; [apply F|apply F']; now apply typed_mapb_spec.
  - intros f g A B F. specialize (H2 _ (sub_subs _ _ A)). rewrite forallb_forall in H2. specialize (H2 _ (sub_subs _ _ B)). cbn beta iota in H2.
    apply same_functionb_spec in F. rewrite F in H2. now apply Nat.eqb_eq.
Qed.

Definition instanceb (v : pyval) : bool := match v with VStr _ | VInst _ => true | _ => false end.
Definition same_leafb (x y : pyval) : bool :=
  match x, y with
  | VClass _ n, VClass _ n' => String.eqb n n'
  | VFun _, VFun _ => true
  | VModule _, VModule _ => true
  | VIO _, VIO _ => true
  | VNdarray _ d, VNdarray _ d' => String.eqb d d'
  | _, _ => instanceb x && instanceb y && type_eqb (type_of x) (type_of y)
  end.
Lemma same_leafb_spec x y : same_leafb x y = true -> same_leaf x y.
Proof.
  assert (G : instanceb x && instanceb y && type_eqb (type_of x) (type_of y) = true -> is_instance x /\ is_instance y /\ type_of x = type_of y).
  { intros H. apply andb_true_iff in H as [H C]. apply andb_true_iff in H as [A B]. apply type_eqb_spec in C. repeat split; auto; [destruct x|destruct y]; try discriminate; exact I. }
  destruct x, y; cbn [same_leafb same_leaf]; try exact G; intros H; auto; now apply String.eqb_eq.
Qed.
Definition leafb (v : pyval) : bool := match v with VSeq _ _ _ | VMap _ _ _ => false | _ => true end.
Definition consistent_leavesb (v : pyval) : bool :=
  forallb (fun x => forallb (fun y => negb (leafb x && leafb y && Nat.eqb (ty_id (type_of x)) (ty_id (type_of y))) || same_leafb x y) (subs v)) (subs v).
Lemma consistent_leavesb_spec v : consistent_leavesb v = true -> consistent_leaves v.
Proof.
  unfold consistent_leavesb. rewrite forallb_forall. intros H x y Hx Hy Lx Ly E. specialize (H x (sub_subs _ _ Hx)). rewrite forallb_forall in H. specialize (H y (sub_subs _ _ Hy)).
  apply orb_true_iff in H as [H|H]; [|now apply same_leafb_spec]. exfalso. apply Nat.eqb_eq in E. rewrite E in H. destruct x; try contradiction; destruct y; try contradiction; discriminate.
Qed.
Definition consistent_keysb (v : pyval) : bool :=
  forallb (fun k => forallb (fun k' => negb (Nat.eqb (ty_id (key_type k)) (ty_id (key_type k'))) || type_eqb (key_type k) (key_type k')) (map_keys v)) (map_keys v).
Lemma consistent_keysb_spec v : consistent_keysb v = true -> consistent_keys v.
Proof.
  unfold consistent_keysb. rewrite forallb_forall. intros H k k' Hk Hk' E. specialize (H k (key_in_keys _ _ Hk)). rewrite forallb_forall in H. specialize (H k' (key_in_keys _ _ Hk')).
  apply orb_true_iff in H as [H|H]; [|now apply type_eqb_spec]. exfalso. apply Nat.eqb_eq in E. now rewrite E in H.
Qed.
Definition no_doc_keysb (v : pyval) : bool := forallb (fun k => negb (is_hidden k)) (map_keys v).
Lemma no_doc_keysb_spec v : no_doc_keysb v = true -> no_doc_keys v.
Proof. unfold no_doc_keysb. rewrite forallb_forall. intros H k Hk F. apply hidden_doc in F. specialize (H k (key_in_keys _ _ Hk)). now rewrite F in H. Qed.
Definition within_limitb (s : strategies) (v : pyval) : bool :=
  match effective_limit s with
  | None => true
  | Some n => forallb (fun x => match x with VSeq _ _ l => Nat.leb (length l) n | VMap _ _ d => Nat.leb (length d) n | _ => true end) (subs v)
  end.
Lemma within_limitb_spec s v : within_limitb s v = true -> within_limit s v.
Proof.
  unfold within_limitb, within_limit, limit. destruct (effective_limit s) as [n|]; [|split; auto]. rewrite forallb_forall. intros H.
  split; intros k t l Hx; specialize (H _ (sub_subs _ _ Hx)); cbn beta iota in H; apply Nat.leb_le in H; intros; now apply firstn_all2.
Qed.
Definition no_emptyb (s : strategies) (v : pyval) : bool :=
  negb (existsb (fun x => match x with VSeq k _ [] => negb (fixedb s k) | _ => false end) (subs v)) ||
  negb (existsb (fun x => match x with VMap _ _ [] => true | _ => false end) (subs v)).
Definition one_emptyb (v : pyval) : bool :=
  negb (existsb (fun x => match x with VMap MDict _ [] => true | _ => false end) (subs v)) ||
  negb (existsb (fun x => match x with VMap MProxy _ [] => true | _ => false end) (subs v)).
Definition empties_differb (s : strategies) (v : pyval) : bool := no_emptyb s v && one_emptyb v.
Lemma empties_differb_spec s v : empties_differb s v = true -> empties_differ s v.
Proof.
  unfold empties_differb, no_emptyb, one_emptyb. intros H. apply andb_true_iff in H as [H H0]. split.
  2: { intros t t' A B. apply orb_true_iff in H0 as [H0|H0]; apply negb_true_iff, not_true_iff_false in H0; apply H0; apply existsb_exists;
       [exists (VMap MDict t [])|exists (VMap MProxy t' [])]; (split; [now apply sub_subs|reflexivity]). }
  intros k t k' t' A B. apply fixedb_spec. destruct (fixedb s k) eqn:F; auto. exfalso. apply orb_true_iff in H as [H|H]; apply negb_true_iff, not_true_iff_false in H; apply H; apply existsb_exists.
  - exists (VSeq k t []). split; [now apply sub_subs|]. now rewrite F.
  - exists (VMap k' t' []). split; [now apply sub_subs|]. reflexivity.
Qed.
Definition rows_agreeb (v : pyval) : bool :=
  forallb (fun q => match q with VSeq _ _ l => let ds := string_dicts l in
    forallb (fun d => forallb (fun d' => forallb (fun kv => forallb (fun kv' =>
      negb (key_eqb (fst kv) (fst kv')) ||
      ((negb (Nat.eqb (ty_id (type_of (snd kv))) (ty_id (type_of (snd kv')))) || coversb (S (vdepth (snd kv))) (snd kv) (snd kv')) &&
       negb (Nat.eqb (ty_id (type_of (snd kv))) t_int && Nat.eqb (ty_id (type_of (snd kv'))) t_float))) d') d) ds) ds | _ => true end) (subs v).
Lemma rows_agreeb_spec v : rows_agreeb v = true -> rows_agree v.
Proof.
  unfold rows_agreeb. rewrite forallb_forall. intros H k t l d d' key x y Hq Hd Hd' Hx Hy. specialize (H _ (sub_subs _ _ Hq)). cbn beta iota zeta in H.
  rewrite forallb_forall in H. specialize (H d Hd). rewrite forallb_forall in H. specialize (H d' Hd'). rewrite forallb_forall in H. specialize (H _ Hx). rewrite forallb_forall in H. specialize (H _ Hy).
  cbn [fst snd] in H. rewrite key_eqb_refl in H. cbn [negb orb] in H. apply andb_true_iff in H as [H1 H2]. split.
  - intros E. apply Nat.eqb_eq in E. rewrite E in H1. cbn [negb orb] in H1. now apply coversb_spec in H1.
  - intros [A B]. apply Nat.eqb_eq in A, B. now rewrite A, B in H2.
Qed.
Definition someb (ds : list dict) (k : key) : bool := negb (is_hidden k) && existsb (dmem k) ds.
Definition allb (ds : list dict) (k : key) : bool := negb (is_hidden k) && negb (Nat.eqb (length ds) 0) && forallb (dmem k) ds.
Lemma someb_spec ds k : someb ds k = true <-> in_some ds k.
Proof.
  unfold someb, in_some. rewrite andb_true_iff, negb_true_iff, existsb_exists, <- hidden_doc. rewrite <- not_true_iff_false. split; intros [A (d & B & C)]; (split; [auto|]); exists d; (split; [auto|]).
  - now apply dmem_spec in C.
  - now apply dmem_spec.
Qed.
Lemma allb_spec ds k : allb ds k = true <-> in_all ds k.
Proof.
  unfold allb, in_all. rewrite !andb_true_iff, !negb_true_iff, forallb_forall, <- hidden_doc. rewrite <- !not_true_iff_false. split.
  - intros [[A B] C]. split; auto. split; [intros ->; now apply B|]. intros d Hd. apply dmem_spec. auto.
  - intros (A & B & C). split; [split; auto; intros F; apply Nat.eqb_eq in F; destruct ds; [congruence|discriminate]|]. intros d Hd. apply dmem_spec. now apply C.
Qed.
Definition all_keys (ds : list dict) : list key := flat_map (map fst) ds.
Definition optional_keys_agreeb (v : pyval) : bool :=
  forallb (fun q => forallb (fun q' => match q, q' with VSeq _ _ l, VSeq _ _ l' =>
    let ds := string_dicts l in let ds' := string_dicts l' in let ks := (all_keys ds ++ all_keys ds')%list in
    negb (forallb (fun k => Bool.eqb (someb ds k) (someb ds' k)) ks) || Nat.eqb (length ds) 0 || Nat.eqb (length ds') 0 || forallb (fun k => Bool.eqb (allb ds k) (allb ds' k)) ks
    | _, _ => true end) (subs v)) (subs v).
Lemma all_keys_In ds k : in_all ds k -> In k (all_keys ds).
Proof. intros (_ & B & C). destruct ds as [|d ds]; [congruence|]. apply in_flat_map. exists d. split; [now left|]. apply C. now left. Qed.
Lemma optional_keys_agreeb_spec v : optional_keys_agreeb v = true -> optional_keys_agree v.
Proof.
  unfold optional_keys_agreeb. rewrite forallb_forall. intros H k t l k' t' l' A B Na Nb E key. specialize (H _ (sub_subs _ _ A)). rewrite forallb_forall in H. specialize (H _ (sub_subs _ _ B)).
  cbn beta iota zeta in H. rewrite !orb_true_iff in H. destruct H as [[[H|H]|H]|H].
  - exfalso. apply negb_true_iff, not_true_iff_false in H. apply H. apply forallb_forall. intros k0 _. apply eqb_true_iff. apply eq_true_iff_eq. rewrite !someb_spec. apply E.
  - exfalso. apply Nat.eqb_eq in H. destruct (string_dicts l); [congruence|discriminate].
  - exfalso. apply Nat.eqb_eq in H. destruct (string_dicts l'); [congruence|discriminate].
  - rewrite forallb_forall in H. rewrite <- !allb_spec. split; intros F.
    + rewrite <- (eqb_prop _ _ (H key (in_or_app _ _ _ (or_introl (all_keys_In _ _ (proj1 (allb_spec _ _) F)))))). exact F.
    + rewrite (eqb_prop _ _ (H key (in_or_app _ _ _ (or_intror (all_keys_In _ _ (proj1 (allb_spec _ _) F)))))). exact F.
Qed.
Definition tidyb (s : strategies) (v : pyval) : bool :=
  plain_datab s v && consistent_leavesb v && consistent_keysb v && unique_keysb v && no_doc_keysb v && within_limitb s v && empties_differb s v && rows_agreeb v && optional_keys_agreeb v.
Lemma tidyb_spec s v : tidyb s v = true -> tidy s v.
Proof.
  unfold tidyb. rewrite !andb_true_iff. intros [[[[[[[[A B] C] D] E] F] G] H] I]. split;
    [now apply plain_datab_spec|now apply consistent_leavesb_spec|now apply consistent_keysb_spec|now apply unique_keysb_spec|now apply no_doc_keysb_spec|now apply within_limitb_spec|now apply empties_differb_spec| |];
    intros _; [now apply rows_agreeb_spec|now apply optional_keys_agreeb_spec].
Qed.

Definition jsonb (v : pyval) : bool :=
  forallb (fun x => match x with
     | VStr _ => true
     | VInst t => existsb (type_eqb t) [ty_none; ty_bool; ty_int; ty_float]
     | VSeq KList t _ => type_eqb t ty_list
     | VMap MDict t _ => type_eqb t ty_dict
     | _ => false end) (subs v) && forallb (fun k => match k with KStr _ => true | _ => false end) (map_keys v).
Lemma jsonb_spec v : jsonb v = true -> json v.
Proof.
  unfold jsonb. rewrite andb_true_iff, !forallb_forall. intros [A B]. split.
  - intros x Hx. specialize (A x (sub_subs _ _ Hx)). destruct x as [| | | | | | |[]|[]]; auto; try discriminate; try now apply type_eqb_spec.
    apply existsb_exists in A as (u & Hu & E). apply type_eqb_spec in E. now subst.
  - intros k Hk. specialize (B k (key_in_keys _ _ Hk)). destruct k; try discriminate. eauto.
Qed.
Definition named_by_wordsb (v : pyval) : bool :=
  forallb (fun x => match x with VClass _ n => str_forall word_char n | VNdarray _ d => str_forall word_char d | _ => true end) (subs v).
Definition quotableb (k : string) : bool := str_forall (fun c => negb (existsb (Nat.eqb (nat_of_ascii c)) [34; 92; 10; 13])) k.
Lemma quotableb_spec k : quotableb k = true -> quotable k.
Proof.
  unfold quotableb. rewrite str_forall_In. intros H c Hc F. apply chars_str_In in Hc. specialize (H c Hc). apply negb_true_iff, not_true_iff_false in H. apply H.
  apply existsb_exists. exists (code c). split; auto. apply Nat.eqb_refl.
Qed.
Definition keys_quotableb (v : pyval) : bool := forallb (fun k => match k with KStr x => quotableb x | _ => true end) (map_keys v).
Lemma keys_quotableb_spec v : keys_quotableb v = true -> forall k, key_in (KStr k) v -> quotable k.
Proof. unfold keys_quotableb. rewrite forallb_forall. intros H k Hk. apply quotableb_spec. exact (H _ (key_in_keys _ _ Hk)). Qed.
Definition names_okb (s : strategies) (v : pyval) (n : string) : bool :=
  ordinaryb v && named_by_wordsb v && builtin_keysb v && camel_nameb n && solid_typesb v && keys_quotableb v && String.eqb (s_key_doc s) "".
Lemma names_okb_spec s v n : names_okb s v n = true -> names_ok s v n.
Proof.
  unfold names_okb. rewrite !andb_true_iff. intros [[[[[[A B] C] D] E] F] G]. split; [now apply ordinaryb_spec|]. split.
  - unfold named_by_wordsb in B. rewrite forallb_forall in B. intros x Hx. specialize (B x (sub_subs _ _ Hx)). destruct x; auto; now apply word_like_spec.
  - split; [now apply builtin_keysb_spec|]. intros _. split; [now apply camel_nameb_spec|]. split; [now apply solid_typesb_spec|]. split; [now apply keys_quotableb_spec|]. left. now apply String.eqb_eq.
Qed.

Fixpoint nodup_str (l : list string) : bool := match l with [] => true | x :: r => negb (mem x r) && nodup_str r end.
Lemma nodup_str_spec l : nodup_str l = true -> NoDup l.
Proof.
  induction l as [|x l IH]; cbn; intros H; constructor; apply andb_true_iff in H as [H1 H2]; auto. intros F. apply mem_spec in F. now rewrite F in H1.
Qed.
Definition unambiguousb (names : list string) (v : pyval) : bool :=
  nodup_str names && forallb (fun n => negb (mem n typing_names)) names &&
  forallb (fun x => negb (mem (ty_name (type_of x)) names) && match x with VClass _ n => negb (mem n names) | _ => true end) (subs v) &&
  forallb (fun k => negb (mem (ty_name (key_type k)) names)) (map_keys v).
Lemma unambiguousb_spec ds v : unambiguousb (map declared ds) v = true -> unambiguous ds v.
Proof.
  assert (M : forall x l, negb (mem x l) = true -> ~ In x l) by (intros x l H F; apply mem_spec in F; now rewrite F in H).
  unfold unambiguousb. rewrite !andb_true_iff, !forallb_forall. intros [[[A B] C] D]. split.
  - now apply nodup_str_spec.
  - intros n Hn. apply M. auto.
  - intros x Hx. specialize (C x (sub_subs _ _ Hx)). apply andb_true_iff in C as [C _]. now apply M.
  - intros m n Hx. specialize (C _ (sub_subs _ _ Hx)). apply andb_true_iff in C as [_ C]. now apply M.
  - intros k Hk. apply M. apply D. now apply key_in_keys.
Qed.

(** Names can be read off the text. *)
Lemma declared_texts ds : Forall readable ds -> map declared ds = map head_name (map print_decl ds).
Proof.
  intros H. rewrite map_map. apply map_ext_in. intros d Hd. rewrite Forall_forall in H. destruct (H d Hd) as (A & B & _). symmetry. apply print_decl_name. split; auto. now apply word_like_spec.
Qed.
Lemma unambiguous_texts texts ds v : texts = map print_decl ds -> Forall readable ds -> unambiguousb (map head_name texts) v = true -> unambiguous ds v.
Proof. intros -> R H. apply unambiguousb_spec. now rewrite declared_texts. Qed.

(** Boolean version of [readable]. *)
Definition is_nameb (n : string) : bool := str_forall name_char n && match n with String c _ => negb (Ascii.eqb c ".") | "" => false end.
Lemma is_nameb_spec n : is_nameb n = true -> is_name n.
Proof.
  unfold is_nameb. rewrite andb_true_iff. intros [A B]. split; auto. destruct n as [|c r]; [discriminate|]. exists c, r. split; auto. intros ->. discriminate.
Qed.
Fixpoint wf_tyb (t : ty) : bool :=
  match t with
  | TName n => is_nameb n
  | TStr x => str_forall (fun c => negb (existsb (Ascii.eqb c) [""""; ascii_of_nat 10]%char)) x
  | TApp h args => is_nameb h && forallb wf_tyb args
  | TArgs args => forallb wf_tyb args
  | TDots => true
  end.
Lemma wf_tyb_spec t : wf_tyb t = true -> wf_ty t.
Proof.
  induction t as [n|x|h args IH|args IH|] using ty_ind'; cbn [wf_tyb]; intros H.
  - now apply is_nameb_spec.
  - exact H.
  - apply andb_true_iff in H as [A B]. apply wf_app. split; [now apply is_nameb_spec|]. rewrite Forall_forall in *. rewrite forallb_forall in B. auto.
  - apply wf_args. rewrite Forall_forall in *. rewrite forallb_forall in H. auto.
  - exact I.
Qed.
Definition readableb (d : decl) : bool :=
  str_forall word_char (declared d) && negb (String.eqb (declared d) "") &&
  match d with
  | DAlias _ t => wf_tyb t
  | DTyped _ functional fs doc => match doc with None => true | _ => false end && forallb (fun f =>
      wf_tyb (fd_type f) && match fd_doc f with None => true | _ => false end && if functional then quotableb (fd_key f) else str_forall word_char (fd_key f)) fs
  | DProto _ sig => str_forall (fun c => negb (Ascii.eqb (ascii_of_nat 10) c)) sig
  end.
Lemma readableb_spec ds : forallb readableb ds = true -> Forall readable ds.
Proof.
  rewrite forallb_forall. intros H. apply Forall_forall. intros d Hd. specialize (H d Hd). unfold readableb in H. rewrite !andb_true_iff in H. destruct H as [[A B] C].
  split; [now apply word_like_spec|]. split; [now apply String.eqb_neq, negb_true_iff|]. destruct d as [n t|n b fs doc|n sig]; [now apply wf_tyb_spec| |exact C].
  apply andb_true_iff in C as [C D]. destruct doc; [discriminate|]. split; auto. rewrite forallb_forall in D. intros f Hf. specialize (D f Hf). rewrite !andb_true_iff in D. destruct D as [[D1 D2] D3].
  split; [now apply wf_tyb_spec|]. split; [now destruct (fd_doc f)|]. destruct b; [now apply quotableb_spec|now apply word_like_spec].
Qed.
