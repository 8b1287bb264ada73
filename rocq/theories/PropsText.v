(** C88: when a text is generated. *)
From Coq Require Import Ascii String List Bool Arith Lia.
From Verif Require Import PyStr PyStrFacts Utils Strategies Imports Dispatch Values Tree Build Emit SpecData BuildFacts Provenance AlikeFacts EmitFacts TextFacts Samples.
Import ListNotations.
Local Open Scope string_scope.
Local Open Scope nat_scope.

(** The result of the function is looked up in its source: it is no lambda and its signature has no arrow. *)
Definition source_needed (f : pyfun) : Prop := f_lambda f = false /\ exists sig k, f_sig f = Some (sig, k) /\ forall a b, sig <> a ++ "->" ++ b.
(** ... which cannot be read. *)
Definition unreadable (f : pyfun) : Prop := source_needed f /\ f_return f = None.

Lemma fails_spec n : function_fails n = true <-> exists f, tkind n = NFun f /\ unreadable f.
Proof.
  unfold function_fails. destruct (tkind n) as [|f| | | | | | |] eqn:E; try (split; [discriminate|intros (g & H & _); discriminate]).
  unfold function_top, unreadable, source_needed. split.
  - intros H. exists f. split; auto. destruct (f_sig f) as [[sig k]|]; [|discriminate]. destruct (f_lambda f); [discriminate|]. cbv zeta in H.
    destruct (contains "->" sig) eqn:C; [discriminate|]. destruct (f_return f) as [[|]|]; try discriminate. split; auto. split; auto. exists sig, k. split; auto.
    intros a b ->. assert (X : contains "->" (a ++ "->" ++ b) = true) by (apply contains_spec; eauto). congruence.
  - intros (g & H & (L & sig & k & Sg & N) & R). injection H as <-. rewrite Sg, L, R. cbv zeta. destruct (contains "->" sig) eqn:C; auto. apply contains_spec in C as (a & b & C). now apply N in C.
Qed.

(** Exactly the functions of the tree that iteration reaches decide, and the imports make no difference. *)
Theorem C88_text : forall s ord v name t include_imports, from_data s ord v name = Ok t ->
  (to_string s t include_imports = None <-> exists n f, visited_node n t /\ tkind n = NFun f /\ unreadable f).
Proof.
  intros s ord v name t b H. unfold from_data in H. destruct (is_compatible name); [|discriminate]. apply build_root in H as [R D].
  pose proof (root_collected s t R D) as C. unfold to_string.
  assert (E : get_strs s t b = None <-> exists n, In n (collect s t) /\ function_fails n = true) by (apply get_strs_none; intros Z; rewrite Z in C; destruct C).
  transitivity (get_strs s t b = None); [destruct (get_strs s t b); cbn [option_map]; split; congruence|]. rewrite E. split.
  - intros (n & I & F). apply fails_spec in F as (f & K & U). exists n, f. split; auto. now apply collect_visited in I.
  - intros (n & f & V & K & U). exists n. split; [|apply fails_spec; eauto]. destruct (always_collected s t n V) as [->|I]; auto. unfold perm. now rewrite K.
Qed.
Print Assumptions C88_text.

(** Data without such functions gives a text. *)
Theorem C88_data : forall s ord v name t include_imports, set_like ord -> from_data s ord v name = Ok t ->
  (forall f, sub (VFun f) v -> ~ unreadable f) -> exists text, to_string s t include_imports = Some text.
Proof.
  intros s ord v name t b O H U. destruct (to_string s t b) as [x|] eqn:E; eauto. exfalso. apply (C88_text s ord v name t b H) in E as (n & f & V & K & F).
  unfold from_data in H. destruct (is_compatible name); [|discriminate].
  assert (P : tree_ok (fun x => forall f, x = VFun f -> ~ unreadable f) (fun _ => True) t).
  { apply (build_prov s ord O (fun x => forall f, x = VFun f -> ~ unreadable f) (fun _ => True)) with (fuel := S (vdepth v)) (name := name) (d := 0) (r := true) (v := v); auto.
    - intros x Hx g Eg. destruct x as [| | | | | | |k ty l|k ty l]; try discriminate; [apply Hx; exact Eg|destruct k; discriminate].
    - intros d _ g Eg. discriminate.
    - split; auto. intros x Hx g ->. now apply U. }
  assert (Nn : node_of n t) by now apply visited_is_node. destruct (P n Nn) as ((x & T & M) & _). destruct M as [_ M]. rewrite K in M.
  destruct x as [| |g| | | | | |k ty kvs]; try discriminate; [injection M as ->; now apply (T g)|]. destruct k; [destruct M as (d & m & M)|]; discriminate.
Qed.
Print Assumptions C88_data.

(** [len]: a signature without an arrow and no source; [f]: the same with a source. *)
Definition len_like (readable : option bool) : pyval := VFun (PyFun (PyType 951 "builtin_function_or_method") false (Some ("(obj, /)", 1)) readable).
Example C88_example :
  (exists t, from_data default_strategies as_inserted (vlist [vint; len_like None]) "Example" = Ok t /\ to_string default_strategies t false = None) /\
  (exists t text, from_data default_strategies as_inserted (vlist [vint; len_like (Some true)]) "Example" = Ok t /\ to_string default_strategies t false = Some text /\
     text = "class ExampleBuiltin_function_or_method(Protocol):" ++ nl ++ "    def __call__(obj, /) -> Any: ..." ++ nl ++ nl ++ nl ++ "Example: TypeAlias = List[Union[ExampleBuiltin_function_or_method, int]]") /\
  (* of two functions with one signature only the first is kept *)
  (exists t text, from_data default_strategies as_inserted (vlist [len_like (Some true); len_like None]) "Example" = Ok t /\ to_string default_strategies t true = Some text).
Proof.
  split; [eexists; split; [vm_compute; reflexivity|]; vm_compute; reflexivity|]. split.
  - do 2 eexists. split; [vm_compute; reflexivity|]. split; [vm_compute; reflexivity|]. vm_compute. reflexivity.
  - do 2 eexists. split; [vm_compute; reflexivity|]. vm_compute. reflexivity.
Qed.
Example C88_data_example : (forall f, sub (VFun f) (vlist [vint; len_like (Some true)]) -> ~ unreadable f) /\ ~ (forall f, sub (VFun f) (vlist [vint; len_like None]) -> ~ unreadable f).
Proof.
  split.
  - intros f H [_ R]. inversion H as [|? ? ? y Hy Hs|]; subst. destruct Hy as [<-|[<-|[]]]; inversion Hs; subst. discriminate R.
  - intros H. apply (H (PyFun (PyType 951 "builtin_function_or_method") false (Some ("(obj, /)", 1)) None)).
    + apply sub_seq with (len_like None); [right; now left|apply sub_refl].
    + split; [|reflexivity]. split; [reflexivity|]. do 2 eexists. split; [reflexivity|]. intros a b E. assert (C : contains "->" "(obj, /)" = true) by (apply contains_spec; eauto). discriminate C.
Qed.
