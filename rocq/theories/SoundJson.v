(** JSON data meets most of the conditions for soundness. *)
From Coq Require Import Ascii String List Bool Arith ZArith Lia.
From Verif Require Import PyStr PyStrFacts Strategies Dispatch Values Build SpecNames SpecData SpecMerge SpecTypes SpecEmit BuildFacts EmitFacts EmitTop SpecSound.
Import ListNotations.
Local Open Scope string_scope.
Local Open Scope nat_scope.

Lemma json_type v x : json v -> sub x v -> In (type_of x) [ty_none; ty_bool; ty_int; ty_float; ty_str; ty_list; ty_dict].
Proof.
  intros [H _] Hx. specialize (H x Hx). destruct x as [| | | | | | |[]|[]]; try contradiction; cbn [type_of] in *; subst; simpl in *; tauto.
Qed.
Lemma json_key v k : json v -> key_in k v -> key_type k = ty_str.
Proof. intros [_ H] Hk. destruct (H k Hk) as (x & ->). reflexivity. Qed.

Lemma json_tidy s v : json v -> unique_keys v -> no_doc_keys v -> within_limit s v -> empties_differ s v ->
  (s_dict s = DTypedDict -> rows_agree v /\ optional_keys_agree v) -> tidy s v.
Proof.
  intros J U N W E R. pose proof (json_type v) as JT. split; auto; try (now intros T; apply R in T).
  - destruct J as [J _]. split; [|split; [|split]].
    + intros x Hx. specialize (J x Hx). destruct x as [| | | | | | |[]|[]]; auto; contradiction || discriminate.
    + intros k t l k' t' l' H1 H2 _. pose proof (J _ H1) as A. pose proof (J _ H2) as B. cbv beta iota in A, B. destruct k; try contradiction. destruct k'; try contradiction. subst. auto.
    + intros k t l k' t' l' H1 H2 _ _. pose proof (J _ H1) as A. pose proof (J _ H2) as B. cbv beta iota in A, B. destruct k; try contradiction. destruct k'; try contradiction. auto.
    + intros f g H1. destruct (J _ H1).
  - intros x y Hx Hy Lx Ly Eq. pose proof (proj1 J x Hx) as A. pose proof (proj1 J y Hy) as B.
    assert (I : forall z, is_leaf z -> match z with
       | VStr _ => True
       | VInst t => In t [ty_none; ty_bool; ty_int; ty_float]
       | VSeq KList t _ => t = ty_list
       | VMap MDict t _ => t = ty_dict
       | _ => False end -> is_instance z).
    { intros z Lz Hz. destruct z as [| | | | | | | |]; cbn in *; auto. }
    pose proof (I x Lx A) as Ix. pose proof (I y Ly B) as Iy.
    assert (T : type_of x = type_of y).
    { pose proof (JT x J Hx) as C. pose proof (JT y J Hy) as D. clear -C D Eq. simpl in C, D.
      repeat (destruct C as [C|C]; [rewrite <- C in *|]); try contradiction;
        repeat (destruct D as [D|D]; [rewrite <- D in *; try reflexivity; discriminate|]); contradiction. }
    unfold same_leaf. destruct x; try contradiction; cbn in Ix; try contradiction; auto.
  - intros k k' Hk Hk' _. now rewrite !(json_key v).
Qed.

Lemma json_names s v n : json v ->
  (s_dict s = DTypedDict -> camel_name n /\ (forall k, key_in (KStr k) v -> quotable k) /\ (s_key_doc s = "" \/ ~ key_in (KStr (s_key_doc s)) v)) ->
  names_ok s v n.
Proof.
  intros J H. pose proof (json_type v) as JT. split; [|split; [|split]].
  - split.
    + intros x Hx. apply JT in Hx; auto. apply word_like_spec. simpl in Hx. repeat (destruct Hx as [<-|Hx]; [reflexivity|]). contradiction.
    + intros k Hk. rewrite (json_key v) by auto. now apply word_like_spec.
  - intros x Hx. destruct J as [J _]. specialize (J x Hx). destruct x; auto; contradiction.
  - intros k Hk. rewrite (json_key v) by auto. apply mem_spec. reflexivity.
  - intros T. destruct (H T) as (A & B & C). split; auto. split; auto. split.
    + intros x Hx. apply JT in Hx; auto. apply solid_spec. simpl in Hx. repeat (destruct Hx as [<-|Hx]; [reflexivity|]). contradiction.
    + intros k Hk. rewrite (json_key v) by auto. now apply solid_spec.
Qed.
