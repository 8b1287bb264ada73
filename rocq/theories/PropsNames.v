(** C03 for all keys: which characters the names of nodes can have.
    Model: Build.v, Utils.v (utils.py:9-24; dict_data_type_tree.py, set_and_sequence_operations.py: names of children). *)
From Coq Require Import Ascii String List Bool Arith.
From Verif Require Import PyStr PyStrFacts Utils Strategies Dispatch Values Tree Build TreeFacts SpecNames NamesFacts SpecData BuildFacts BuildInd TotalFacts TreeProofs SpecExact PropsExact Samples.
Import ListNotations.
Local Open Scope string_scope.

(** No superscript and no fraction. *)
Definition no_sign (s : string) : Prop := forall c, In c (chars s) -> ~ numeral_sign c.
Definition no_signs (v : pyval) : Prop :=
  (forall x, sub x v -> no_sign (ty_name (type_of x))) /\
  (forall k, key_in k v -> no_sign (ty_name (key_type k)) /\ forall s, k = KStr s -> no_sign s).

Definition signb (c : ascii) : bool := existsb (Nat.eqb (code c)) [178; 179; 185; 188; 189; 190].
Lemma signb_spec c : signb c = true <-> numeral_sign c.
Proof.
  unfold signb, numeral_sign. rewrite existsb_exists. split.
  - intros (x & H & E). apply Nat.eqb_eq in E. now subst.
  - intros H. exists (code c). rewrite Nat.eqb_refl. auto.
Qed.
Definition W_sign (c : ascii) : bool := negb (signb c).
Lemma W_sign_closed : closed_class W_sign.
Proof. split; try reflexivity; intros c; by_chars c. Qed.
Lemma no_sign_spec s : no_sign s <-> str_forall W_sign s = true.
Proof.
  unfold no_sign, W_sign. rewrite str_forall_In. split; intros H c Hc; specialize (H c); rewrite chars_str_In in *.
  - apply negb_true_iff, not_true_iff_false. rewrite signb_spec. auto.
  - rewrite <- signb_spec. specialize (H Hc). apply negb_true_iff in H. now rewrite H.
Qed.
Lemma named_sign v : ordinary_types v -> no_signs v -> namedW W_sign v.
Proof.
  intros [A B] [C D]. split.
  - intros x Hx. split; auto. now apply no_sign_spec, C.
  - intros k Hk. destruct (D k Hk). split; [split; auto; now apply no_sign_spec|]. intros. now apply (W_camel W_sign W_sign_closed), no_sign_spec, H0.
Qed.

(** An accepted name is an identifier exactly if it has no such character. *)
Theorem C03_when_identifier : forall n, accepted n -> (identifier n <-> no_sign n).
Proof.
  intros n (c & r & -> & St & R & _). split.
  - intros I d Hd Sg. inversion I as [c' r' _ F]; subst. assert (X : id_continue d).
    { destruct Hd as [<-|Hd]; [now left|]. rewrite Forall_forall in F. auto. }
    assert (Y : forall d, negb (id_continueb d && signb d) = true) by (intros e; by_chars e).
    specialize (Y d). rewrite (proj2 (id_continueb_spec d) X), (proj2 (signb_spec d) Sg) in Y. discriminate Y.
  - intros N. constructor; auto. rewrite Forall_forall in *. intros d Hd. destruct (R d Hd) as [X|[X|X]]; [now left|right; now left|]. exfalso. apply (N d); auto. now right.
Qed.
Print Assumptions C03_when_identifier.

(** All keys: the names of nodes begin like identifiers and go on with letters, digits, underscores, superscripts and fractions;
    without superscripts and fractions in the data they are identifiers. *)
Theorem C03_all_keys : forall s ord v n t, valid s -> set_like ord -> ordinary_types v -> from_data s ord v n = Ok t ->
  forall x, node_of x t -> accepted (tname x) /\ (identifier (tname x) <-> no_sign (tname x)) /\ (no_signs v -> no_sign n -> identifier (tname x)).
Proof.
  intros s ord v n t Hs Ho Hv H x Hx. unfold from_data in H. destruct (is_compatible n) eqn:Hn; [|discriminate].
  destruct (build_total s ord Ho (valid_merge s Hs) W_all W_all_closed (W_all_str _) (S (vdepth v)) n 0 true v) as (t' & E & A); eauto using named_all, W_all_str.
  rewrite H in E. injection E as <-. pose proof (all_names_nodes _ _ A x Hx) as (C & _ & _). apply is_compatible_accepted in C.
  split; auto. split; [now apply C03_when_identifier|]. intros Hp Np. apply C03_when_identifier; auto.
  destruct (build_total s ord Ho (valid_merge s Hs) W_sign W_sign_closed eq_refl (S (vdepth v)) n 0 true v) as (t' & E & B); eauto using named_sign; [now apply no_sign_spec|].
  rewrite H in E. injection E as <-. apply (all_names_nodes _ _ B) in Hx as (_ & W & _). now apply no_sign_spec.
Qed.
Print Assumptions C03_all_keys.

(** A key with a middle dot does no harm. *)
Definition dotted : string := "a" ++ String (ascii_of_nat 183) "b c".
Example C03_all_keys_example : exists t, from_data default_strategies as_inserted (vdict [(dotted, vlist [vlist [vint]]); ("m" ++ String (ascii_of_nat 178) "", vint)]) "Example" = Ok t /\
  ordinary_types (vdict [(dotted, vlist [vlist [vint]])]) /\ no_signs (vdict [(dotted, vlist [vlist [vint]])]) /\ ~ plain dotted.
Proof.
  eexists. split; [vm_compute; reflexivity|]. split; [apply ordinaryb_spec; reflexivity|]. split.
  - assert (H : everywhere (str_forall W_sign) (fun k => str_forall W_sign (ty_name (key_type k)) && match k with KStr s => str_forall W_sign s | _ => true end) (vdict [(dotted, vlist [vlist [vint]])]) = true) by (vm_compute; reflexivity).
    apply everywhere_spec in H as [A B]. split.
    + intros x Hx. now apply no_sign_spec, A.
    + intros k Hk. specialize (B k Hk). apply andb_true_iff in B as [B1 B2]. split; [now apply no_sign_spec|]. intros s ->. now apply no_sign_spec.
  - intros P. apply (P (ascii_of_nat 183)); [right; now left|]. do 6 right. now left.
Qed.
