(** C72 and C73: the names of the nodes under the keys of a mapping. *)
From Coq Require Import Ascii String List Bool Arith Lia.
From Verif Require Import PyStr PyStrFacts Utils Strategies Dispatch Values Tree Build TreeFacts SpecData SpecNames SpecEmit BuildFacts ShareFacts GroupFacts SpecCamel CamelFacts Samples.
Import ListNotations.
Local Open Scope string_scope.
Local Open Scope nat_scope.

(** [_to_camel_case] gives the camel case of every text, and a text has only one. *)
Theorem C72_camel : forall s x, camel s x <-> x = to_camel_case s.
Proof. exact camel_iff. Qed.
Print Assumptions C72_camel.
Example C72_camel_example : camel "12 first_name-3rd" "FirstName3rd".
Proof. apply camel_iff. reflexivity. Qed.

Lemma mapping_built s ord k ty kvs name t : NoDup (map fst kvs) -> from_data s ord (VMap k ty kvs) name = Ok t ->
  exists f d kvs' cs, NoDup (map fst cs) /\ build_values (fun n x => build s ord f n d false x) name kvs' = Ok cs /\ tcs t = share_groups s name cs.
Proof.
  intros N H. unfold from_data in H. destruct (is_compatible name); [|discriminate].
  assert (Q : exists f d kvs' cs, incl kvs' kvs /\ NoDup (map fst kvs') /\ build_values (fun n x => build s ord f n d false x) name kvs' = Ok cs /\ tcs t = share_groups s name cs).
  { assert (L : incl (limit s kvs) kvs /\ NoDup (map fst (limit s kvs))).
    { unfold limit. destruct (effective_limit s) as [m|]; [|split; auto; apply incl_refl]. split; [intros x Hx; rewrite <- (firstn_skipn m kvs); apply in_or_app; now left|].
      rewrite <- firstn_map. rewrite <- (firstn_skipn m (map fst kvs)) in N. clear -N. revert N. generalize (firstn m (map fst kvs)). intros l.
      induction l as [|y l IH]; intros N; [constructor|]. inversion N; subst. constructor; auto. intros X. apply H1. apply in_or_app; auto. }
    cbn [build] in H. destruct k.
    - apply bind_Ok in H as (cs & H1 & H2). injection H2 as <-. exists (vdepth (VMap MDict ty kvs)), 1, (if is_td_strategy s then kvs else limit s kvs), cs.
      destruct (is_td_strategy s); repeat split; auto; try apply L. apply incl_refl.
    - destruct (negb _); [discriminate|]. apply bind_Ok in H as (cs & H1 & H2). injection H2 as <-. exists (vdepth (VMap MProxy ty kvs)), 1, (limit s kvs), cs. repeat split; auto; apply L. }
  destruct Q as (f & d & kvs' & cs & I & N' & B & E). exists f, d, kvs', cs. split; auto.
  rewrite (build_values_keys _ _ _ _ B). unfold visible_keys. apply NoDup_filter. auto.
Qed.
Lemma mapping_children s ord k ty kvs name t : NoDup (map fst kvs) -> from_data s ord (VMap k ty kvs) name = Ok t ->
  exists cs, NoDup (map fst cs) /\ tcs t = share_groups s name cs.
Proof. intros N H. destruct (mapping_built s ord k ty kvs name t N H) as (f & d & kvs' & cs & Nc & _ & E). eauto. Qed.

(** What a key adds to the name of the mapping: its camel case, or the name of its type if it is no text. *)
Definition key_word (k : key) (x : string) : Prop :=
  match k with KStr t => camel t x | _ => x = ty_name (key_type k) end.
(** Keys with equal nodes share one node, named after its type; the second such node of a type is numbered 2, and so on. *)
Theorem C72_names : forall s ord k ty kvs name t, NoDup (map fst kvs) -> from_data s ord (VMap k ty kvs) name = Ok t ->
  forall e, In e (tcs t) ->
    (alone s (tcs t) e -> exists x, key_word (ekey e) x /\ tname (etree e) = name ++ x) /\
    (~ alone s (tcs t) e -> exists n, tname (etree e) = name ++ capitalize (ty_name (i_type (ti (etree e)))) ++ (match n with 0 => "" | _ => str_of_nat (n + 1) end)) /\
    (forall e', In e' (tcs t) -> teq s (etree e) (etree e') = true -> etree e = etree e').
Proof.
  intros s ord k ty kvs name t N H e He. destruct (mapping_built s ord k ty kvs name t N H) as (f & d & kvs' & cs & Nc & B & E). rewrite E in *.
  split; [|split].
  - intros Al. apply (alone_node s name cs Nc e He) in Al. destruct (build_values_In _ _ _ _ _ _ B Al) as (_ & v & _ & Hv).
    apply TotalFacts.build_from_els in Hv as [_ Hv]. rewrite Hv. unfold value_name, key_word.
    destruct (ekey e) as [t0| |]; eexists; (split; [|reflexivity]); auto. now apply camel_iff.
  - intros Na. destruct (shared_node s name cs Nc e He Na) as (k0 & c & last & n & _ & _ & _ & En). exists n. exact En.
  - intros e' He' T. destruct (share_entry s name cs e Nc He) as (a & g & b & E1 & K & T0). destruct (share_entry s name cs e' Nc He') as (a' & g' & b' & E2 & K' & T1).
    rewrite T0, T1 in *. rewrite regrouped_teq, teq_sym, regrouped_teq, teq_sym in T. pose proof (gi_apart _ _ _ (groups_inv_all s cs Nc)) as P.
    pose proof E1 as E4. rewrite E2 in E4. symmetry in E4. apply split_cases in E4 as [(<- & <- & <-)|[(m & -> & ->)|(m & -> & ->)]]; auto; exfalso.
    + rewrite E1 in P. apply pairs_app in P as (_ & P & _). inversion P as [|? ? X Y]; subst. rewrite Forall_forall in X. specialize (X g'). rewrite X in T; [discriminate|]. apply in_or_app. right. now left.
    + rewrite E2 in P. apply pairs_app in P as (_ & P & _). inversion P as [|? ? X Y]; subst. rewrite Forall_forall in X. specialize (X g). rewrite teq_sym, X in T; [discriminate|]. apply in_or_app. right. now left.
Qed.
Print Assumptions C72_names.
Definition camel_data : pyval := vdict [("first name", vint); ("2nd", vlist [vint]); ("x", vlist [vstr]); ("y", vlist [vstr]); ("", vstr)].
Example C72_example : exists t, from_data default_strategies as_inserted camel_data "Example" = Ok t /\
  map (fun e => tname (etree e)) (tcs t) = ["ExampleFirstName"; "ExampleNd"; "ExampleList"; "ExampleList"; "Example"].
Proof. eexists. split; vm_compute; reflexivity. Qed.

(** The number of a shared node: how many other shared nodes of the same type occur before it (none: no number; one: 2; ...). *)
Theorem C72_numbers : forall s ord k ty kvs name t, NoDup (map fst kvs) -> from_data s ord (VMap k ty kvs) name = Ok t ->
  forall before e after, tcs t = (before ++ e :: after)%list -> ~ alone s (tcs t) e -> (forall e', In e' before -> etree e' <> etree e) ->
  exists others, NoDup others /\
    (forall x, In x others <-> exists e', In e' before /\ ~ alone s (tcs t) e' /\ etree e' = x /\ ty_id (i_type (ti x)) = ty_id (i_type (ti (etree e)))) /\
    tname (etree e) = name ++ capitalize (ty_name (i_type (ti (etree e)))) ++ (match List.length others with 0 => "" | n => str_of_nat (n + 1) end).
Proof.
  intros s ord k ty kvs name t N H before e after E Na Ne. destruct (mapping_built s ord k ty kvs name t N H) as (f & d & kvs' & cs & Nc & B & Et). rewrite Et in *.
  destruct (shared_number s name cs Nc before e after E Na Ne) as (l & L & I & T). exists l. split; [exact L|]. split; [exact I|]. rewrite T. unfold suffix_no. now destruct (List.length l).
Qed.
Print Assumptions C72_numbers.
Example C72_numbers_example : exists t before e after, from_data default_strategies as_inserted (vdict [("p", vlist [vstr]); ("q", vlist [vstr]); ("r", vlist [vint]); ("s", vlist [vint])]) "Example" = Ok t /\
  tcs t = (before ++ e :: after)%list /\ ~ alone default_strategies (tcs t) e /\ (forall e', In e' before -> etree e' <> etree e) /\ tname (etree e) = "ExampleList2".
Proof.
  eexists. eexists (_ :: _ :: nil), _, (_ :: nil). split; [vm_compute; reflexivity|]. cbn [tcs app]. split; [reflexivity|]. split; [|split; [|reflexivity]].
  - intros Al. match type of Al with alone _ (_ :: _ :: _ :: ?x :: nil) _ => specialize (Al x) end. cbn [In ekey fst] in Al. assert (A : forall b : bool, b = true -> b = false -> False) by congruence. eapply A; [|apply Al; [tauto|discriminate]]. vm_compute. reflexivity.
  - intros e' [<-|[<-|[]]] X; apply (f_equal tname) in X; vm_compute in X; discriminate.
Qed.

(** Two keys that share their node with no other key have the same name exactly if they give the same word. *)
Theorem C73_all_keys : forall s ord k ty kvs name t, NoDup (map fst kvs) -> from_data s ord (VMap k ty kvs) name = Ok t ->
  forall e e' x y, In e (tcs t) -> In e' (tcs t) -> alone s (tcs t) e -> alone s (tcs t) e' -> key_word (ekey e) x -> key_word (ekey e') y ->
  (tname (etree e) = tname (etree e') <-> x = y).
Proof.
  intros s ord k ty kvs name t N H e e' x y He He' A A' Kx Ky.
  destruct (C72_names s ord k ty kvs name t N H e He) as ((u & Ku & ->) & _); auto. destruct (C72_names s ord k ty kvs name t N H e' He') as ((v & Kv & ->) & _); auto.
  assert (O : forall k a b, key_word k a -> key_word k b -> a = b) by (intros [] a b; cbn [key_word]; try congruence; intros Ca Cb; apply camel_iff in Ca, Cb; congruence).
  rewrite (O _ _ _ Kx Ku), (O _ _ _ Ky Kv). split; [apply app_inj_l|congruence].
Qed.
Print Assumptions C73_all_keys.

(** ** C73: keys with different nodes get different names.
    Full claim: for all keys.  Proved if both keys are texts with different camel cases and no other key has an equal node, or if the
    nodes are both shared and of one type; false otherwise. *)
Theorem C73_different_partial : forall s ord k ty kvs name t, NoDup (map fst kvs) -> from_data s ord (VMap k ty kvs) name = Ok t ->
  forall e e', In e (tcs t) -> In e' (tcs t) -> etree e <> etree e' ->
    (alone s (tcs t) e /\ alone s (tcs t) e' /\ (exists x y a b, ekey e = KStr x /\ ekey e' = KStr y /\ camel x a /\ camel y b /\ a <> b)) \/
    (~ alone s (tcs t) e /\ ~ alone s (tcs t) e' /\ i_type (ti (etree e)) = i_type (ti (etree e'))) ->
    tname (etree e) <> tname (etree e').
Proof.
  intros s ord k ty kvs name t N H e e' He He' D [(A & A' & x & y & a & b & Ex & Ey & Ca & Cb & Ab)|(A & A' & T)].
  - destruct (C72_names s ord k ty kvs name t N H e He) as ((u & Ku & ->) & _); auto. destruct (C72_names s ord k ty kvs name t N H e' He') as ((v & Kv & ->) & _); auto.
    rewrite Ex in Ku. rewrite Ey in Kv. cbn [key_word] in *. intros E. apply app_inj_l in E. apply Ab. apply camel_iff in Ca, Cb, Ku, Kv. congruence.
  - destruct (mapping_children s ord k ty kvs name t N H) as (cs & Nc & E). rewrite E in *. intros En. apply D. eapply (shared_same s name cs Nc); eauto.
Qed.
Print Assumptions C73_different_partial.
Example C73_example : exists t, from_data default_strategies as_inserted (vdict [("p", vlist [vstr]); ("q", vlist [vstr]); ("r", vlist [vint]); ("s", vlist [vint]); ("u", vint); ("v", vstr)]) "Example" = Ok t /\
  map (fun e => tname (etree e)) (tcs t) = ["ExampleList"; "ExampleList"; "ExampleList2"; "ExampleList2"; "ExampleU"; "ExampleV"].
Proof. eexists. split; vm_compute; reflexivity. Qed.
Theorem C73_different_refuted : exists kvs t e e', NoDup (map fst kvs) /\ from_data default_strategies as_inserted (VMap MDict ty_dict kvs) "Example" = Ok t /\
  In e (tcs t) /\ In e' (tcs t) /\ ekey e <> ekey e' /\ alone default_strategies (tcs t) e /\ alone default_strategies (tcs t) e' /\ tname (etree e) = tname (etree e').
Proof.
  exists [(KStr "a b", vint); (KStr "aB", vstr)]. eexists. do 2 eexists. split; [|split; [vm_compute; reflexivity|]].
  - repeat constructor; cbn; intuition discriminate.
  - split; [left; reflexivity|]. split; [right; left; reflexivity|]. split; [discriminate|].
    split; [|split; [|reflexivity]]; intros e' [<-|[<-|[]]] X; try (now contradiction X); reflexivity.
Qed.
Print Assumptions C73_different_refuted.
