(** C27 for the signatures of functions. *)
From Coq Require Import Ascii String List Bool Arith Lia.
From Verif Require Import PyStr PyStrFacts Exc Utils Strategies Dispatch Values Tree Build TreeFacts SpecNames NamesFacts SpecData SpecEmit BuildFacts TreeProofs
  Emit EmitFacts AlikeFacts TypedFacts SampleEmit PropsTree PropsEmit PropsShow Samples Show SpecExact SpecMypy PropsCheck PropsExact SpecText SpecDeclaration SpecSignature DocstringFacts DeclarationFacts SignatureFacts ElabFacts Imports.
Import ListNotations.
Local Open Scope string_scope.
Local Open Scope nat_scope.

Lemma fun_imports s ord f n t o : from_data s ord (VFun f) n = Ok t -> function_top n f = Some o -> forall k, In k (recorded_imports s t) <-> In k (snd o).
Proof.
  intros H F k. unfold from_data in H. destruct (is_compatible n) eqn:C; [|discriminate].
  assert (E : t = Node (Info n 0 0 true (NFun f) (f_type f)) []).
  { destruct (S (vdepth (VFun f))); cbn [build] in H; unfold leaf in H; rewrite C in H; now injection H. }
  subst t. unfold recorded_imports. rewrite imp_adds_In. cbn [collect]. unfold perm, tkind. cbn [ti i_kind i_depth Nat.eqb andb flat_map].
  rewrite top_node. cbn [i_kind i_name]. rewrite F, app_nil_r. cbn [In]. tauto.
Qed.

(** The keywords recorded for a function that is no lambda: the protocol, what its signature asks for, and Any if a
    function without an annotated result returns something. *)
Theorem C27_signatures : forall s ord f n t sig k ds,
  from_data s ord (VFun f) n = Ok t -> f_sig f = Some (sig, k) -> f_lambda f = false -> declarations s t = Some ds ->
  (forall kw, In kw (recorded_imports s t) <->
     kw = "Protocol" \/ Asked (map fst PACKAGE) sig kw \/ kw = "Any" /\ ~ has_arrow sig /\ f_return f = Some true) /\
  (exists hs, Hints sig hs /\ forall hs', Hints sig hs' -> hs' = hs) /\
  (exists r, Result sig r /\ forall r', Result sig r' -> r' = r).
Proof.
  intros s ord f n t sig k ds H Sg Lm D. split; [|split].
  - rewrite (fun_declarations s ord f n t H) in D. destruct (function_top n f) as [o|] eqn:O; [|discriminate]. intros kw.
    rewrite (fun_imports s ord f n t o H O). rewrite <- signature_imports_spec.
    assert (C : contains "->" sig = true <-> has_arrow sig) by apply occurs_contains.
    unfold function_top in O. rewrite Sg, Lm in O. cbv zeta in O. destruct (contains "->" sig).
    + injection O as <-. cbn [snd In]. assert (has_arrow sig) by tauto. intuition congruence.
    + assert (~ has_arrow sig) by (rewrite <- C; discriminate). destruct (f_return f) as [[]|]; [| |discriminate]; injection O as <-; cbn [snd In]; rewrite ?in_app_iff; cbn [In]; intuition congruence.
  - exists (findall_hints (String.length sig) sig). split; [apply findall_hints_sound; auto|]. intros hs' X. symmetry. eapply findall_hints_complete; eauto.
  - exists (search_return sig). split; [apply search_return_sound|]. intros r' X. symmetry. now apply search_return_complete.
Qed.
Print Assumptions C27_signatures.

Lemma hints_exist s : exists hs, Hints s hs.
Proof. exists (findall_hints (String.length s) s). now apply findall_hints_sound. Qed.
Lemma hints_after_comma : forall m p x hx, String.length p <= m -> Hints x hx -> exists hs, Hints (p ++ "," ++ x) hs /\ incl hx hs.
Proof.
  induction m as [|m IH]; intros [|c p] x hx L H; cbn [String.length] in L; try lia.
  - exists hx. split; [|apply incl_refl]. apply hints_other; [discriminate|exact H].
  - exists hx. split; [|apply incl_refl]. apply hints_other; [discriminate|exact H].
  - destruct (Nat.eq_dec (code c) 58) as [E|E].
    + pose proof (colon_of c E) as ->. destruct (take_while hint_char (lstrip p)) as [|d h] eqn:T.
      * destruct (IH p x hx) as (hs & H1 & H2); [lia|auto|]. exists hs. split; auto.
        destruct (no_hint_lstrip p T) as (gap & B & [->|(r & ->)]).
        -- apply (hints_comma gap); auto.
        -- cbn [String.append]. rewrite !app_assoc_s in *. apply (hints_comma gap); auto.
      * destruct (take_while_spec hint_char (lstrip p)) as (S1 & _ & _). destruct (take_hint_spec (lstrip p)) as (S2 & S3). rewrite T in *.
        destruct S2 as [S2|S2]; [discriminate|]. destruct (lstrip_spec p) as (gap & R1 & R2 & _). pose proof (lstrip_length p) as L1.
        remember (drop (String.length (String d h)) (lstrip p)) as rest eqn:Er.
        assert (L2 : String.length rest <= String.length (lstrip p)) by (subst rest; apply drop_length).
        destruct (IH rest x hx) as (hs & H1 & H2); [lia|auto|]. exists (String d h :: hs). split; [|now apply incl_tl].
        rewrite R1, S1. change (String ":" (gap ++ String d h ++ rest) ++ "," ++ x) with (":" ++ (gap ++ String d h ++ rest) ++ "," ++ x). rewrite !app_assoc_s.
        apply hints_found; auto. destruct S3 as [->|(e & r & -> & N)]; right; cbn [String.append].
        -- exists ","%char, x. split; auto. intros [_ K]. now apply K.
        -- eauto.
    + destruct (IH p x hx) as (hs & H1 & H2); [lia|auto|]. exists hs. split; auto. cbn [String.append]. now apply hints_other.
Qed.
Lemma hints_no_colon mid x hs : Forall (fun c => code c <> 58) (chars mid) -> Hints x hs -> Hints (mid ++ x) hs.
Proof. intros F H. induction mid as [|c m IH]; [exact H|]. inversion F; subst. cbn [String.append]. apply hints_other; auto. Qed.
Lemma unpaired_same h : (forall a b, h <> a ++ "):" ++ b) -> Unpaired h h.
Proof.
  induction h as [|c h IH]; intros N; [apply unpaired_nil|]. apply unpaired_other; [intros r E; now apply (N "" r)|]. apply IH. intros a b E. apply (N (String c a) b). rewrite E. reflexivity.
Qed.

(** Nothing is missed in annotations without white space and commas, whatever the other parameters look like. *)
Theorem C27_simple_annotations : forall pre mid gap ann rest w k,
  (pre = "" \/ exists p, pre = p ++ ",") -> Forall (fun c => code c <> 58) (chars mid) -> blank gap -> hint ann -> hint_ends rest ->
  (forall a b, ann <> a ++ "):" ++ b) -> Whole w ann -> Keyword w k -> In k (map fst PACKAGE) ->
  Asked (map fst PACKAGE) (pre ++ mid ++ ":" ++ gap ++ ann ++ rest) k.
Proof.
  intros pre mid gap ann rest w k P M B A R N W K I. split; auto. exists w. split; auto. left. destruct (hints_exist rest) as (hr & Hr).
  assert (H : Hints (mid ++ ":" ++ gap ++ ann ++ rest) (ann :: hr)) by (apply hints_no_colon; auto; now apply hints_found).
  assert (G : exists hs, Hints (pre ++ mid ++ ":" ++ gap ++ ann ++ rest) hs /\ In ann hs).
  { destruct P as [->|(p & ->)]; [exists (ann :: hr); split; [exact H|now left]|]. destruct (hints_after_comma (String.length p) p _ _ (le_n _) H) as (hs & H1 & H2).
    exists hs. rewrite !app_assoc_s. split; [exact H1|]. apply H2. now left. }
  destruct G as (hs & G1 & G2). exists hs, ann, ann. repeat split; auto. now apply unpaired_same.
Qed.
Print Assumptions C27_simple_annotations.

Lemma hint_of h : h <> "" -> str_forall hint_char h = true -> hint h.
Proof. intros N F. split; auto. apply Forall_chars in F. rewrite Forall_forall in *. intros c Hc. now apply hint_char_spec, F. Qed.
Example C27_signature_example : exists t, from_data default_strategies as_inserted
    (VFun (PyFun ty_fun false (Some ("(a: Dict[str,Any], b: 'Sequence[Iterator]' = {1: 2}, *c) -> Optional[List[int]]:", 3)) None)) "Example" = Ok t /\
  recorded_imports default_strategies t = ["Protocol"; "dict"; "Sequence"; "Iterator"; "Optional"; "list"] /\
  exists ds, declarations default_strategies t = Some ds.
Proof. eexists. split; [vm_compute; reflexivity|]. split; [vm_compute; reflexivity|]. eexists; vm_compute; reflexivity. Qed.
Example C27_annotation_example : Asked (map fst PACKAGE) ("(a: Dict[str,Any]," ++ " b" ++ ":" ++ " " ++ "'Sequence[Iterator]'" ++ " = {1: 2}, *c)") "Iterator".
Proof.
  apply (C27_simple_annotations "(a: Dict[str,Any]," " b" " " "'Sequence[Iterator]'" " = {1: 2}, *c)" "Iterator" "Iterator").
  - right. exists "(a: Dict[str,Any]". reflexivity.
  - repeat constructor; discriminate.
  - constructor; [unfold white; cbn; tauto|constructor].
  - apply hint_of; [discriminate|reflexivity].
  - right. eexists _, _. split; [reflexivity|]. rewrite <- hint_char_spec. discriminate.
  - intros a b E. assert (X : contains "):" "'Sequence[Iterator]'" = true) by (rewrite E; apply contains_spec; eauto). vm_compute in X. discriminate.
  - exists "'Sequence[", "]'". split; [reflexivity|]. split; [discriminate|]. split; [|split; right].
    + apply (Forall_impl _ (fun c => proj1 (word_code_spec c))). apply Forall_chars. reflexivity.
    + exists "'Sequence", "["%char. split; [reflexivity|]. rewrite <- word_code_spec. discriminate.
    + eexists _, _. split; [reflexivity|]. rewrite <- word_code_spec. discriminate.
  - apply keyword_spec. reflexivity.
  - apply mem_spec. reflexivity.
Qed.
