(** Calls of [from_data] and histories of several objects over one disk. *)
From Coq Require Import Ascii String List Bool Arith ZArith Lia Permutation.
From Verif Require Import PyStr PyStrFacts Utils NamesFacts Exc SpecNames SpecText
  YamlLines YamlEntries PyFile PyFileFacts Live SpecLive LiveText LiveMethods LiveBlocks LiveFacts.
Import ListNotations.
Local Open Scope string_scope.
Local Open Scope nat_scope.

(** ** The directory of class files *)
Lemma lookup_store c c' x b : lookup c (store c' x b) = if String.eqb c c' then Some x else lookup c b.
Proof.
  induction b as [|[n y] b IH]; cbn [store lookup].
  - reflexivity.
  - destruct (String.eqb_spec c' n) as [-> | N]; cbn [lookup].
    + destruct (String.eqb_spec c n); reflexivity.
    + destruct (String.eqb_spec c n) as [-> | N2].
      * destruct (String.eqb_spec n c'); [congruence | reflexivity].
      * exact IH.
Qed.

Definition present (b : list (string * string)) (c : string) : bool := match lookup c b with Some _ => true | None => false end.
Lemma present_store cs c x b : forallb (present b) cs = true -> forallb (present (store c x b)) cs = true.
Proof.
  rewrite !forallb_forall. intros H y Hy. specialize (H y Hy). unfold present in *. rewrite lookup_store. destruct (String.eqb y c); [reflexivity | exact H].
Qed.
Lemma mem_spec_iff c cs : mem c cs = true <-> In c cs.
Proof. unfold mem. rewrite existsb_exists. split; [intros (x & Hx & E); apply String.eqb_eq in E; now subst | intros H; exists c; split; [exact H | apply String.eqb_refl]]. Qed.

Lemma nth_set_nth {A} k (x : A) l y : nth_error l k = Some y -> nth_error (set_nth k x l) k = Some x.
Proof. revert k. induction l as [|z l IH]; intros [|k] H; cbn in *; try discriminate; [reflexivity | eauto]. Qed.
Lemma length_set_nth {A} k (x : A) l : List.length (set_nth k x l) = List.length l.
Proof. revert k. induction l as [|z l IH]; intros [|k]; cbn; auto. Qed.
Lemma Forall_set_nth {A} (P : A -> Prop) k x l : P x -> Forall P l -> Forall P (set_nth k x l).
Proof. intros Hx. revert k. induction l as [|z l IH]; intros [|k] H; cbn; inversion H; subst; constructor; auto. Qed.

Section Calls.
  Context {D : Type}.
  Variable unparsed : list string.
  Variable generate : D -> string -> exc string.
  Variable t : template.
  Hypothesis Ht : well_formed t = true.
  Hypothesis Hinit : initial_lines unparsed = Val (template_lines t).

  Notation from_data := (from_data generate).
  Notation step := (step unparsed generate).
  Notation steps := (steps unparsed generate).

  Lemma classes_added i cs ys ds s : Shape t i cs ys ds (s_lines s) ->
    get_classes_added s = (if forallb (present (d_build (s_disk s))) cs then Val cs else Raise LiveError, s).
  Proof. intros H. unfold get_classes_added. rewrite (Shape_registered t Ht _ _ _ _ _ H). reflexivity. Qed.

  (** A call fails and changes nothing, or rewrites the file of a known class, or registers a new one. *)
  Inductive Outcome (data : D) (c : string) (i cs ys ds : list string) (s : state) : exc D * state -> Prop :=
    | Failed : forall r, (forall d, r <> Val d) -> Outcome data c i cs ys ds s (r, s)
    | Known : forall text,
        generate data c = Val text -> is_compatible c = true -> In c cs ->
        Outcome data c i cs ys ds s
          (Val data, State (s_lines s) (Disk (d_stub (s_disk s)) (store c text (d_build (s_disk s)))) (s_log s ++ [WClass c text])%list)
    | Added : forall text l1 l2 l3 l4,
        generate data c = Val text -> is_compatible c = true -> ~ In c cs ->
        Shape t i (cs ++ [c]) ys ds l1 -> Shape t (c :: i) (cs ++ [c]) ys ds l2 ->
        Shape t (c :: i) (cs ++ [c]) ys (c :: ds) l3 -> Shape t (c :: i) (cs ++ [c]) (c :: ys) (c :: ds) l4 ->
        Outcome data c i cs ys ds s
          (Val data, State l4 (Disk (Some (py_str l4)) (store c text (d_build (s_disk s))))
             (s_log s ++ [WClass c text; WStub (py_str l1); WStub (py_str l2); WStub (py_str l3); WStub (py_str l4)])%list).

  Lemma from_data_outcome validate data c i cs ys ds s : Shape t i cs ys ds (s_lines s) ->
    Outcome data c i cs ys ds s (from_data validate data c s).
  Proof.
    intros H. unfold Live.from_data. destruct (is_compatible c) eqn:Hc; cbn [negb]; [|unfold throw; now constructor].
    unfold mbind at 1. rewrite (classes_added _ _ _ _ _ H). destruct (forallb (present (d_build (s_disk s))) cs) eqn:HP; [|now constructor].
    unfold mbind at 1, query. destruct (generate data c) as [text|e|] eqn:G; [|now constructor|now constructor].
    unfold mbind at 1.
    assert (GO : Outcome data c i cs ys ds s
       (mbind (create_class_file c text) (fun _ => mbind get_classes_added (fun cs' => if mem c cs' then ret data else mbind (add_new_class c) (fun _ => ret data))) s)).
    { unfold mbind at 1, create_class_file, write_file. cbn [apply_write]. unfold mbind at 1.
      set (s1 := State (s_lines s) (Disk (d_stub (s_disk s)) (store c text (d_build (s_disk s)))) (s_log s ++ [WClass c text])%list).
      rewrite (classes_added _ _ _ _ s1 H). cbn [s1 s_disk d_build]. rewrite present_store by exact HP.
      destruct (mem c cs) eqn:M.
      - apply Known; auto. now apply mem_spec_iff.
      - unfold mbind. destruct (add_new_class_shape t Ht _ _ _ _ s1 c H Hc) as (l1 & l2 & l3 & l4 & H1 & H2 & H3 & H4 & ->).
        unfold ret. cbn [s1 s_disk d_build s_log]. rewrite <- app_assoc. cbn [app]. apply Added; auto. rewrite <- mem_spec_iff. congruence. }
    destruct (mem c cs && validate) eqn:M; [|exact GO].
    destruct (lookup c (d_build (s_disk s))) as [old|]; [|now constructor].
    destruct (String.eqb (remove_docstrings text) (remove_docstrings (universal old))); [exact GO | now constructor].
  Qed.

  (** ** All histories: every object and the stub have some shape. *)
  Definition Shaped (l : list string) : Prop := exists i cs ys ds, Shape t i cs ys ds l.
  Definition stub_ok (d : disk) : Prop := d_stub d = None \/ exists l, d_stub d = Some (py_str l) /\ Shaped l.
  Definition World_ok (w : world) : Prop := stub_ok (w_disk w) /\ Forall (fun o => Shaped (o_lines o)) (w_objects w).

  Lemma open_ok d : stub_ok d -> exists l, open_live unparsed d = Val l /\ Shaped l.
  Proof.
    intros [E | (l & E & (i & cs & ys & ds & H))]; unfold open_live; rewrite E.
    - exists (template_lines t). split; [exact Hinit|]. exists [], [], [], []. now apply template_Shape.
    - exists (py_read (universal (py_str l))). split; [reflexivity|]. exists i, cs, ys, ds. now apply reread_Shape.
  Qed.

  Lemma apply_app d ws vs : apply_writes d (ws ++ vs) = apply_writes (apply_writes d ws) vs.
  Proof. unfold apply_writes. apply fold_left_app. Qed.
  Lemma apply_stub_ok ws : forall d, stub_ok d -> Forall (fun w => match w with WStub x => exists l, x = py_str l /\ Shaped l | WClass _ _ => True end) ws ->
    stub_ok (apply_writes d ws).
  Proof.
    induction ws as [|w ws IH]; intros d Hd H; [exact Hd|]. inversion H; subst. cbn [apply_writes fold_left]. apply IH; [|assumption].
    destruct w as [n x|x]; cbn [apply_write].
    - destruct Hd as [E | (l & E & Hl)]; [now left | right; exists l; auto].
    - destruct H2 as (l & -> & Hl). right. exists l. auto.
  Qed.
  Lemma Forall_firstn {A} (P : A -> Prop) n l : Forall P l -> Forall P (firstn n l).
  Proof. revert l. induction n; intros l H; [constructor|]. destruct H; cbn; constructor; auto. Qed.

  Lemma step_ok w o : World_ok w -> World_ok (snd (step w o)).
  Proof.
    intros [Hd Ho]. destruct o as [v | k data c | data c k n |]; cbn [Live.step].
    - destruct (open_ok _ Hd) as (l & E & Hl). rewrite E. split; [exact Hd|]. apply Forall_app. split; [exact Ho | now constructor].
    - destruct (nth_error (w_objects w) k) as [ob|] eqn:E; [|now split]. apply nth_error_In in E as Hin.
      rewrite Forall_forall in Ho. destruct (Ho ob Hin) as (i & cs & ys & ds & H).
      pose proof (from_data_outcome (o_validate ob) data c i cs ys ds (State (o_lines ob) (w_disk w) []) H) as R.
      destruct (from_data (o_validate ob) data c (State (o_lines ob) (w_disk w) [])) as [r s]. cbn [snd].
      assert (Ho' : Forall (fun o => Shaped (o_lines o)) (w_objects w)) by (now apply Forall_forall).
      inversion R; subst; cbn [s_disk s_lines].
      + split; [exact Hd|]. apply Forall_set_nth; [|exact Ho']. now exists i, cs, ys, ds.
      + split; [destruct Hd as [E'|(l & E' & Hl)]; [now left | right; exists l; auto]|]. apply Forall_set_nth; [|exact Ho']. now exists i, cs, ys, ds.
      + assert (SH : Shaped l4) by (now exists (c :: i), (cs ++ [c])%list, (c :: ys), (c :: ds)).
        split; [right; exists l4; auto|]. apply Forall_set_nth; [exact SH | exact Ho'].
    - destruct (nth_error (w_objects w) k) as [ob|] eqn:E; [|now split]. apply nth_error_In in E as Hin.
      rewrite Forall_forall in Ho. destruct (Ho ob Hin) as (i & cs & ys & ds & H).
      pose proof (from_data_outcome (o_validate ob) data c i cs ys ds (State (o_lines ob) (w_disk w) []) H) as R.
      destruct (from_data (o_validate ob) data c (State (o_lines ob) (w_disk w) [])) as [r s]. cbn [snd].
      split; [|constructor]. cbn [w_disk]. apply apply_stub_ok; [exact Hd|]. apply Forall_firstn.
      inversion R; subst; cbn [s_log app]; repeat constructor; eexists; (split; [reflexivity|]); unfold Shaped; eauto 6.
    - split; [now left | exact Ho].
  Qed.

  (** The class files: the text of the last call that returned. *)
  Definition no_crash (o : @op D) : bool := match o with Crash _ _ _ _ => false | _ => true end.

  Lemma step_files w o : World_ok w -> no_crash o = true -> forall c,
    lookup c (d_build (w_disk (snd (step w o)))) =
    match o, fst (step w o) with
    | Use _ data c', Some (Val _) => if String.eqb c c' then match generate data c with Val x => Some x | _ => None end else lookup c (d_build (w_disk w))
    | Reset, _ => None
    | _, _ => lookup c (d_build (w_disk w))
    end.
  Proof.
    intros [Hd Ho] HN c. destruct o as [v | k data c' | data c' k n |]; [| |discriminate|]; cbn [Live.step].
    - destruct (open_live unparsed (w_disk w)); reflexivity.
    - destruct (nth_error (w_objects w) k) as [ob|] eqn:E; [|reflexivity]. apply nth_error_In in E as Hin.
      rewrite Forall_forall in Ho. destruct (Ho ob Hin) as (i & cs & ys & ds & H).
      pose proof (from_data_outcome (o_validate ob) data c' i cs ys ds (State (o_lines ob) (w_disk w) []) H) as R.
      destruct (from_data (o_validate ob) data c' (State (o_lines ob) (w_disk w) [])) as [r s]. cbn [snd fst w_disk].
      inversion R as [r' NV | text G | text l1 l2 l3 l4 G]; subst; cbn [s_disk d_build].
      + destruct r as [d|e|]; [exfalso; now apply (NV d) | reflexivity | reflexivity].
      + rewrite lookup_store. destruct (String.eqb_spec c c') as [-> | N]; [now rewrite G | reflexivity].
      + rewrite lookup_store. destruct (String.eqb_spec c c') as [-> | N]; [now rewrite G | reflexivity].
    - reflexivity.
  Qed.

  Lemma steps_cons w o os : steps w (o :: os) =
    (fst (step w o) :: fst (steps (snd (step w o)) os), snd (steps (snd (step w o)) os)).
  Proof. cbn [Live.steps]. destruct (step w o) as [x w1]. cbn [fst snd]. destruct (steps w1 os). reflexivity. Qed.

  Lemma steps_ok os : forall w, World_ok w -> World_ok (snd (steps w os)).
  Proof. induction os as [|o os IH]; intros w H; [exact H|]. rewrite steps_cons. cbn [snd]. apply IH. now apply step_ok. Qed.

  Lemma clean_ok : World_ok clean.
  Proof. split; [now left | constructor]. Qed.

  (** ** One object at a time *)
  (** [n] objects were created; only the last one is used. *)
  Fixpoint sequential (n : nat) (os : list (@op D)) : Prop :=
    match os with
    | [] => True
    | New _ :: r => sequential (S n) r
    | Use k _ _ :: r => S k = n /\ sequential n r
    | _ :: _ => False
    end.

  Definition Seq (w : world) (n : nat) (i cs ys ds : list string) : Prop :=
    List.length (w_objects w) = n /\
    ((d_stub (w_disk w) = None /\ i = [] /\ cs = [] /\ ys = [] /\ ds = []) \/
     exists l, d_stub (w_disk w) = Some (py_str l) /\ Shape t i cs ys ds l /\ cs <> []) /\
    (forall k, n = S k -> exists ob, nth_error (w_objects w) k = Some ob /\ Shape t i cs ys ds (o_lines ob)) /\
    forallb (present (d_build (w_disk w))) cs = true.

  Lemma snoc_ne {A} (l : list A) x : (l ++ [x])%list <> [].
  Proof. destruct l; discriminate. Qed.
  Lemma present_added cs c x b : forallb (present b) cs = true -> forallb (present (store c x b)) (cs ++ [c]) = true.
  Proof.
    intros H. rewrite forallb_app, (present_store cs c x b H). cbn [forallb andb]. unfold present. now rewrite lookup_store, String.eqb_refl.
  Qed.

  Lemma Seq_new w n i cs ys ds v : Seq w n i cs ys ds -> Seq (snd (step w (New v))) (S n) i cs ys ds.
  Proof.
    intros (HL & HD & HO & HP). cbn [Live.step].
    assert (O : exists l, open_live unparsed (w_disk w) = Val l /\ Shape t i cs ys ds l).
    { unfold open_live. destruct HD as [(E & -> & -> & -> & ->) | (l & E & H & _)]; rewrite E.
      - exists (template_lines t). split; [exact Hinit | now apply template_Shape].
      - eexists; split; [reflexivity | now apply reread_Shape]. }
    destruct O as (l & E & H). rewrite E. cbn [snd]. split; [cbn; rewrite app_length, HL; cbn; lia|]. split; [exact HD|]. split; [|exact HP].
    intros k Ek. injection Ek as <-. exists (Object l v). split; [|exact H]. cbn [w_objects]. rewrite nth_error_app2 by lia. now rewrite HL, Nat.sub_diag.
  Qed.

  Lemma Seq_use w k i cs ys ds data c : Seq w (S k) i cs ys ds ->
    (exists r, fst (step w (Use k data c)) = Some r /\ (forall d, r <> Val d) /\ Seq (snd (step w (Use k data c))) (S k) i cs ys ds) \/
    (fst (step w (Use k data c)) = Some (Val data) /\ is_compatible c = true /\ In c cs /\ Seq (snd (step w (Use k data c))) (S k) i cs ys ds) \/
    (fst (step w (Use k data c)) = Some (Val data) /\ is_compatible c = true /\ ~ In c cs /\
       Seq (snd (step w (Use k data c))) (S k) (c :: i) (cs ++ [c]) (c :: ys) (c :: ds)).
  Proof.
    intros (HL & HD & HO & HP). destruct (HO k eq_refl) as (ob & E & H). cbn [Live.step]. rewrite E.
    pose proof (from_data_outcome (o_validate ob) data c i cs ys ds (State (o_lines ob) (w_disk w) []) H) as R.
    destruct (from_data (o_validate ob) data c (State (o_lines ob) (w_disk w) [])) as [r s]. cbn [snd fst].
    assert (K : forall l, exists o, nth_error (set_nth k (Object l (o_validate ob)) (w_objects w)) k = Some o /\ o_lines o = l)
      by (intros l; eexists; split; [eapply nth_set_nth; exact E | reflexivity]).
    inversion R; subst; cbn [s_disk s_lines].
    - left. exists r. split; [reflexivity|]. split; [assumption|]. split; [cbn; now rewrite length_set_nth|]. split; [exact HD|]. split; [|exact HP].
      intros j Ej. injection Ej as <-. destruct (K (o_lines ob)) as (o & Eo & El). exists o. split; [exact Eo | now rewrite El].
    - right. left. split; [reflexivity|]. split; [assumption|]. split; [assumption|]. split; [cbn; now rewrite length_set_nth|]. split; [exact HD|]. split; [|now apply present_store].
      intros j Ej. injection Ej as <-. destruct (K (o_lines ob)) as (o & Eo & El). exists o. split; [exact Eo | now rewrite El].
    - right. right. split; [reflexivity|]. split; [assumption|]. split; [assumption|]. split; [cbn; now rewrite length_set_nth|].
      split; [right; exists l4; split; [reflexivity | split; [assumption | apply snoc_ne]]|]. split; [|now apply present_added].
      intros j Ej. injection Ej as <-. destruct (K l4) as (o & Eo & El). exists o. split; [exact Eo | now rewrite El].
  Qed.

  Lemma Seq_clean : Seq clean 0 [] [] [] [].
  Proof. split; [reflexivity|]. split; [left; auto|]. split; [discriminate | reflexivity]. Qed.

  (** What a crash leaves. *)
  Lemma Seq_crash w k i cs ys ds data c n : Seq w (S k) i cs ys ds ->
    Seq (snd (step w (Crash data c k n))) 0 i cs ys ds \/
    (is_compatible c = true /\ ~ In c cs /\ exists d, fst (step w (Use k data c)) = Some (Val d)) /\
    let w' := snd (step w (Crash data c k n)) in
    (n <= 1 -> Seq w' 0 i cs ys ds) /\
    (n = 2 -> Seq w' 0 i (cs ++ [c]) ys ds) /\
    (n = 3 -> Seq w' 0 (c :: i) (cs ++ [c]) ys ds) /\
    (n = 4 -> Seq w' 0 (c :: i) (cs ++ [c]) ys (c :: ds)) /\
    (5 <= n -> Seq w' 0 (c :: i) (cs ++ [c]) (c :: ys) (c :: ds)).
  Proof.
    intros (HL & HD & HO & HP). destruct (HO k eq_refl) as (ob & E & H). cbn [Live.step]. rewrite E.
    pose proof (from_data_outcome (o_validate ob) data c i cs ys ds (State (o_lines ob) (w_disk w) []) H) as R.
    destruct (from_data (o_validate ob) data c (State (o_lines ob) (w_disk w) [])) as [r s]. cbn [snd fst].
    assert (Z : forall d' i' cs' ys' ds', ((d_stub d' = None /\ i' = [] /\ cs' = [] /\ ys' = [] /\ ds' = []) \/ exists l, d_stub d' = Some (py_str l) /\ Shape t i' cs' ys' ds' l /\ cs' <> []) ->
      forallb (present (d_build d')) cs' = true ->
      Seq (World d' []) 0 i' cs' ys' ds') by (intros; split; [reflexivity | split; [assumption | split; [discriminate | assumption]]]).
    inversion R; subst; cbn [s_log app].
    - left. rewrite firstn_nil. apply Z; [exact HD | exact HP].
    - left. destruct n as [|n]; [apply Z; [exact HD | exact HP]|]. cbn [firstn]. rewrite firstn_nil. apply Z; [exact HD | now apply present_store].
    - right. split; [split; [assumption | split; [assumption | eauto]]|]. cbv zeta.
      split; [intros Hn; destruct n as [|[|n]]; [apply Z; [exact HD | exact HP] | apply Z; [exact HD | now apply present_store] | lia]|].
      assert (P : forallb (present (store c text (d_build (w_disk w)))) (cs ++ [c]) = true) by (now apply present_added).
      split; [intros ->; apply Z; [right; eexists; split; [reflexivity | split; [assumption | apply snoc_ne]] | exact P]|].
      split; [intros ->; apply Z; [right; eexists; split; [reflexivity | split; [assumption | apply snoc_ne]] | exact P]|].
      split; [intros ->; apply Z; [right; eexists; split; [reflexivity | split; [assumption | apply snoc_ne]] | exact P]|].
      intros Hn. do 5 (destruct n as [|n]; [lia|]). cbn [firstn]. rewrite firstn_nil. apply Z; [right; eexists; split; [reflexivity | split; [assumption | apply snoc_ne]] | exact P].
  Qed.

  (** When a call returns. *)
  Lemma from_data_returns validate data c i cs ys ds s text : Shape t i cs ys ds (s_lines s) -> is_compatible c = true ->
    forallb (present (d_build (s_disk s))) cs = true -> generate data c = Val text ->
    (fst (from_data validate data c s) = Val data <->
     (validate = true -> In c cs -> forall old, lookup c (d_build (s_disk s)) = Some old -> remove_docstrings text = remove_docstrings (universal old))) /\
    (fst (from_data validate data c s) <> Val data -> from_data validate data c s = (Raise LiveError, s)).
  Proof.
    intros H Hc HP G.
    set (go := mbind (create_class_file c text) (fun _ => mbind get_classes_added (fun cs' => if mem c cs' then ret data else mbind (add_new_class c) (fun _ => ret data)))).
    assert (GO : fst (go s) = Val data).
    { unfold go. unfold mbind at 1, create_class_file, write_file. cbn [apply_write]. unfold mbind at 1.
      set (s1 := State (s_lines s) (Disk (d_stub (s_disk s)) (store c text (d_build (s_disk s)))) (s_log s ++ [WClass c text])%list).
      rewrite (classes_added _ _ _ _ s1 H). cbn [s1 s_disk d_build]. rewrite present_store by exact HP.
      destruct (mem c cs) eqn:M; [reflexivity|]. unfold mbind.
      destruct (add_new_class_shape t Ht _ _ _ _ s1 c H Hc) as (l1 & l2 & l3 & l4 & _ & _ & _ & _ & ->). reflexivity. }
    assert (EQ : from_data validate data c s =
      if mem c cs && validate
      then match lookup c (d_build (s_disk s)) with
           | None => (Raise (OtherError 0), s)
           | Some old => if String.eqb (remove_docstrings text) (remove_docstrings (universal old)) then go s else (Raise LiveError, s)
           end
      else go s).
    { unfold Live.from_data. rewrite Hc. cbn [negb]. unfold mbind at 1. rewrite (classes_added _ _ _ _ _ H), HP.
      unfold mbind at 1, query. rewrite G. unfold mbind at 1.
      destruct (mem c cs && validate); [|reflexivity]. destruct (lookup c (d_build (s_disk s))); [|reflexivity].
      destruct (String.eqb _ _); reflexivity. }
    rewrite EQ. destruct (mem c cs && validate) eqn:M.
    - apply andb_true_iff in M as [M V]. apply mem_spec_iff in M.
      assert (PR : exists old, lookup c (d_build (s_disk s)) = Some old).
      { rewrite forallb_forall in HP. specialize (HP c M). unfold present in HP. destruct (lookup c (d_build (s_disk s))); [eauto | discriminate]. }
      destruct PR as [old E]. rewrite E. destruct (String.eqb_spec (remove_docstrings text) (remove_docstrings (universal old))) as [Q|Q].
      + split; [|intros X; destruct (X GO)]. split; [|intros _; exact GO]. intros _ _ _ o Eo. injection Eo as <-. exact Q.
      + split; [|reflexivity]. split; [discriminate|]. intros X. exfalso. apply Q. now apply X.
    - split; [|intros X; destruct (X GO)]. split; [|intros _; exact GO]. intros _ V Hin. apply mem_spec_iff in Hin. rewrite Hin, V in M. discriminate.
  Qed.
End Calls.
