(** C66 (layout of the text), C67 (files), C68 and C69 (renaming of declarations). *)
From Coq Require Import Ascii String List Bool Arith Lia.
From Verif Require Import PyStr PyStrFacts Utils Strategies Imports Values Tree Build Emit SpecData SpecNames NamesFacts ElabFacts EmitFacts Samples SpecText SpecYaml SpecDeclaration Output DeclarationFacts.
Import ListNotations.
Local Open Scope string_scope.

(** ** C66: the parts of the text. *)
Definition end_of_line : string := String (ascii_of_nat 10) "".
Definition empty_lines (n : nat) : string := String.concat "" (repeat end_of_line (S n)).
(** [follows x text]: the part [x] with the empty lines in front of it: two before a class, one before anything else. *)
Definition is_class (x : string) : Prop := exists r, x = "class" ++ r.
Inductive Following : list string -> string -> Prop :=
  | fol_nil : Following [] ""
  | fol_class : forall x l r, is_class x -> Following l r -> Following (x :: l) (empty_lines 2 ++ x ++ r)
  | fol_other : forall x l r, ~ is_class x -> Following l r -> Following (x :: l) (empty_lines 1 ++ x ++ r).
(** Two empty lines after the first part. *)
Inductive Layout : list string -> string -> Prop :=
  | lay_one : forall x, Layout [x] (x ++ end_of_line)
  | lay_more : forall x y l r, Following l r -> Layout (x :: y :: l) (x ++ empty_lines 2 ++ y ++ r).


Lemma is_class_spec x : startswith "class" x = true <-> is_class x.
Proof. apply startswith_spec. Qed.
Lemma following l x : Following l (match l with [] => "" | _ => nl ++ nl ++ join (nl ++ nl) (map (fun x => if startswith "class" x then nl ++ x else x) l) end) /\
  join (nl ++ nl) (x :: map (fun x => if startswith "class" x then nl ++ x else x) l) =
  x ++ match l with [] => "" | _ => nl ++ nl ++ join (nl ++ nl) (map (fun x => if startswith "class" x then nl ++ x else x) l) end.
Proof.
  revert x. induction l as [|y l IH]; intros x; cbn [map]; [split; [constructor|cbn; now rewrite app_nil_r_s]|]. split.
  - destruct (IH (if startswith "class" y then nl ++ y else y)) as [F ->]. set (rest := match l with [] => "" | _ => _ end) in *. clearbody rest.
    destruct (startswith "class" y) eqn:E.
    + replace (nl ++ nl ++ (nl ++ y) ++ rest) with (empty_lines 2 ++ y ++ rest) by reflexivity. constructor; auto. now apply is_class_spec.
    + replace (nl ++ nl ++ y ++ rest) with (empty_lines 1 ++ y ++ rest) by reflexivity. constructor; auto. rewrite <- is_class_spec. congruence.
  - rewrite join_cons by discriminate. now rewrite !app_assoc_s.
Qed.
Lemma layout l : l <> [] -> Layout l (format_node_strings l).
Proof.
  intros N. destruct l as [|x [|y l]]; [congruence|constructor|]. unfold format_node_strings. rewrite join_cons by discriminate. destruct (following l y) as [F ->].
  rewrite !app_assoc_s. change (x ++ nl ++ nl ++ nl ++ ?r) with (x ++ empty_lines 2 ++ r). now constructor.
Qed.

Theorem C66_layout : forall s t include_imports text, to_string s t include_imports = Some text ->
  exists ds, declarations s t = Some ds /\ ds <> [] /\
    if include_imports then exists block, format_imports 90 (recorded_imports s t) = Some block /\ Layout (block :: ds) text else Layout ds text.
Proof.
  intros s t b text H. unfold to_string, get_strs in H. destruct (declarations s t) as [ds|]; [|discriminate]. exists ds. split; auto. destruct ds as [|d ds]; [discriminate|]. split; [discriminate|].
  destruct b.
  - destruct (format_imports 90 (recorded_imports s t)) as [block|]; [|discriminate]. exists block. split; auto. injection H as <-. now apply layout.
  - injection H as <-. apply layout. discriminate.
Qed.
Print Assumptions C66_layout.
(** The parts determine the text. *)
Theorem C66_one_text : forall l a b, Layout l a -> Layout l b -> a = b.
Proof.
  assert (F : forall l a, Following l a -> forall b, Following l b -> a = b).
  { induction 1; intros b Hb; inversion Hb; subst; try tauto; try (f_equal; f_equal; auto). }
  intros l a b Ha Hb. inversion Ha; subst; inversion Hb; subst; auto. do 3 f_equal. eauto.
Qed.
Print Assumptions C66_one_text.
Example C66_example : exists t text, from_data default_strategies as_inserted (vdict [("a", vdict [("b", vint)]); ("c", vlist [vlist [vint]])]) "Example" = Ok t /\
  to_string default_strategies t true = Some text /\
  text = "from typing import List, TypedDict" ++ nl ++ "from typing_extensions import TypeAlias" ++ nl ++ nl ++ nl ++
         "class ExampleA(TypedDict):" ++ nl ++ "    b: int" ++ nl ++ nl ++
         "ExampleC: TypeAlias = List[List[int]]" ++ nl ++ nl ++ nl ++ "class Example(TypedDict):" ++ nl ++ "    a: ExampleA" ++ nl ++ "    c: ExampleC".
Proof. do 2 eexists. split; [vm_compute; reflexivity|]. split; vm_compute; reflexivity. Qed.

(** ** C67: to_file.
    Full claim: to_file writes the text of to_string() to the file, makes the missing directories if it may, and changes
    nothing when it raises; in any history.  Proved for the first call on a tree, except that directories made before
    the generation of the text fails stay; refuted for a call after [to_string(include_imports=False)], whose result is cached. *)

(** The working directory is a directory, and so is whatever contains something. *)
Record proper (fs : fsys) : Prop := Proper {
  pr_root : fs [] = Some Dir;
  pr_parent : forall p c, fs (p ++ [c])%list <> None -> fs p = Some Dir }.
Definition above (q p : path) : Prop := exists r, r <> [] /\ p = (q ++ r)%list.
(** [changed fs fs' q p]: the difference between two file systems when [p] was written. *)
Record written (fs fs' : fsys) (p : path) (text : string) (create : bool) : Prop := Written {
  wr_file : fs' p = Some (File text);
  wr_dirs : forall q, above q p -> fs' q = Some Dir;
  wr_kept : forall q, q <> p -> fs q <> None -> fs' q = fs q;
  wr_new : forall q, q <> p -> fs q = None -> fs' q <> None -> above q p /\ create = true }.

Lemma path_eqb_spec p q : path_eqb p q = true <-> p = q.
Proof. unfold path_eqb. destruct (list_eq_dec string_dec p q); split; congruence. Qed.
Lemma put_same p e fs : put p e fs p = Some e.
Proof. unfold put. now rewrite (proj2 (path_eqb_spec p p) eq_refl). Qed.
Lemma put_other p q e fs : p <> q -> put p e fs q = fs q.
Proof. intros N. unfold put. destruct (path_eqb p q) eqn:E; auto. now apply path_eqb_spec in E. Qed.
Lemma app_self {A} (l r : list A) : l = (l ++ r)%list -> r = [].
Proof. intros H. apply (f_equal (@List.length A)) in H. rewrite app_length in H. destruct r; auto. cbn in H. lia. Qed.

Lemma makedirs_spec rest : forall fs base, proper fs -> fs base = Some Dir ->
  let fs' := fst (makedirs fs base rest) in
  proper fs' /\ (forall q, fs q <> None -> fs' q = fs q) /\
  (forall q, fs q = None -> fs' q <> None -> fs' q = Some Dir /\ exists r r', r <> [] /\ rest = (r ++ r')%list /\ q = (base ++ r)%list) /\
  (snd (makedirs fs base rest) = None -> forall r r', rest = (r ++ r')%list -> fs' (base ++ r)%list = Some Dir) /\
  (forall e, snd (makedirs fs base rest) = Some e -> e = NotADirectory /\ exists r r' text, rest = (r ++ r')%list /\ fs (base ++ r)%list = Some (File text)).
Proof.
  induction rest as [|c rest IH]; intros fs base P B; cbn [makedirs fst snd].
  - repeat split; try apply P; try discriminate; auto; try congruence. intros _ r r' E. destruct r; [|discriminate]. now rewrite app_nil_r.
  - destruct (fs (base ++ [c])%list) as [[|text]|] eqn:E.
    + destruct (IH fs (base ++ [c])%list P E) as (I1 & I2 & I3 & I4 & I5). split; [exact I1|]. split; [exact I2|]. split; [|split].
      * intros q H1 H2. destruct (I3 q H1 H2) as (D & r & r' & N & -> & ->). split; auto. exists (c :: r), r'. rewrite <- app_assoc. repeat split; auto. discriminate.
      * intros H r r' Er. destruct r as [|c' r]; [rewrite app_nil_r; rewrite I2; congruence|]. injection Er as -> Er. specialize (I4 H r r' Er). now rewrite <- app_assoc in I4.
      * intros e He. destruct (I5 e He) as (-> & r & r' & text & -> & F). split; auto. exists (c :: r), r', text. split; auto. now rewrite <- app_assoc in F.
    + cbn [fst snd]. repeat split; try apply P; auto; try congruence.
      exists [c], rest, text. auto.
    + assert (P' : proper (put (base ++ [c])%list Dir fs)).
      { split.
        - rewrite put_other; [apply P|]. destruct base; discriminate.
        - intros p x H. destruct (list_eq_dec string_dec (base ++ [c])%list p) as [->|N1]; [apply put_same|]. rewrite put_other by auto.
          destruct (list_eq_dec string_dec (base ++ [c])%list (p ++ [x])%list) as [Eq|N2]; [apply app_inj_tail in Eq as [-> _]; auto|]. rewrite put_other in H by auto. eapply (pr_parent fs P); eauto. }
      destruct (IH _ (base ++ [c])%list P' (put_same _ _ _)) as (I1 & I2 & I3 & I4 & I5). split; [exact I1|].
      assert (K : forall q, fs q <> None -> put (base ++ [c])%list Dir fs q = fs q) by (intros q Hq; apply put_other; congruence).
      split; [intros q Hq; rewrite I2, K; auto; rewrite K; auto|]. split; [|split].
      * intros q H1 H2. destruct (list_eq_dec string_dec (base ++ [c])%list q) as [<-|N1].
        -- split; [rewrite I2; rewrite put_same; congruence|]. exists [c], rest. repeat split; auto. discriminate.
        -- destruct (I3 q) as (D & r & r' & N & -> & ->); auto; [now rewrite put_other|]. split; auto. exists (c :: r), r'. rewrite <- app_assoc. repeat split; auto. discriminate.
      * intros H r r' Er. destruct r as [|c' r]; [rewrite app_nil_r, I2; rewrite K; congruence|]. injection Er as -> Er. specialize (I4 H r r' Er). now rewrite <- app_assoc in I4.
      * intros e He. destruct (I5 e He) as (-> & r & r' & text & -> & F). split; auto. exists (c :: r), r', text. split; auto. rewrite <- app_assoc in F. cbn [app] in F.
        destruct (list_eq_dec string_dec (base ++ [c])%list (base ++ c :: r)%list) as [Eq|N1]; [rewrite Eq, put_same in F; discriminate|]. now rewrite put_other in F.
Qed.
Lemma proper_above fs p : proper fs -> fs p <> None -> forall q, above q p -> fs q = Some Dir.
Proof.
  intros P. induction p as [|c p IH] using rev_ind; intros H q (r & N & E); [destruct q; [destruct r; [congruence|discriminate]|discriminate]|].
  pose proof (pr_parent fs P p c H) as D. destruct r as [|x r] using rev_ind; [congruence|]. clear IHr. rewrite app_assoc in E. apply app_inj_tail in E as [-> ->].
  destruct r as [|y r]; [now rewrite app_nil_r in D|]. apply IH; [congruence|]. exists (y :: r). split; auto. discriminate.
Qed.

Definition first_call (s : strategies) (t : tree) (fs : fsys) (p : path) (create : bool) : fsys * option problem :=
  snd (to_file (get_strs s t) None fs p create).

Theorem C67_written : forall s t fs p create, proper fs -> p <> [] -> snd (first_call s t fs p create) = None ->
  exists text, to_string s t true = Some text /\ written fs (fst (first_call s t fs p create)) p text create.
Proof.
  intros s t fs p create P Np H. unfold first_call, to_file in *. cbn [cached_call] in *.
  destruct (exists_last Np) as (d & c & ->). rewrite removelast_last in *.
  set (made := match fs d with None => _ | Some _ => _ end) in *.
  assert (M : snd made = None -> proper (fst made) /\ (forall q, fs q <> None -> fst made q = fs q) /\
    (forall q, fs q = None -> fst made q <> None -> (exists r, d = (q ++ r)%list) /\ create = true) /\ (fs d = None -> fst made d = Some Dir)).
  { unfold made. destruct (fs d) eqn:Ed; cbn [fst snd]; [intros _; repeat split; auto; try apply P; congruence|]. destruct create; [|discriminate].
    intros E. destruct (makedirs_spec d fs [] P (pr_root fs P)) as (I1 & I2 & I3 & I4 & _). split; auto. split; auto. split.
    - intros q H1 H2. destruct (I3 q H1 H2) as (_ & r & r' & _ & -> & ->). split; auto. exists r'. reflexivity.
    - intros _. apply (I4 E d []). now rewrite app_nil_r. }
  destruct (snd made) as [e|]; [discriminate|]. destruct (M eq_refl) as (P' & K & N & D). clear M. unfold to_string.
  destruct (option_map format_node_strings (get_strs s t true)) as [text|] eqn:T; [|discriminate]. exists text. split; auto. cbn [snd] in *.
  unfold write_text in *. rewrite removelast_last in *. destruct (fst made d) as [[|x]|] eqn:E; try discriminate. destruct (fst made (d ++ [c])%list) as [[|y]|] eqn:E2; try discriminate; cbn [fst].
  all: split; [apply put_same| | |].
  all: try (intros q Nq Hq; rewrite put_other; auto; fail).
  - intros q (r & Nr & Eq). destruct r as [|x r] using rev_ind; [congruence|]. clear IHr. rewrite app_assoc in Eq. apply app_inj_tail in Eq as [-> ->].
    rewrite put_other. 2:{ intros Q. rewrite <- app_assoc in Q. symmetry in Q. apply app_self in Q. now destruct r. }
    destruct r as [|z r]; [now rewrite app_nil_r in E|]. apply (proper_above _ (q ++ z :: r)%list P'); [congruence|]. exists (z :: r). split; auto. discriminate.
  - intros q Nq H1 H2. rewrite put_other in H2 by auto. destruct (N q H1 H2) as ((r & ->) & ->). split; auto. exists (r ++ [c])%list. split; [now destruct r|]. now rewrite app_assoc.
  - intros q (r & Nr & Eq). destruct r as [|x r] using rev_ind; [congruence|]. clear IHr. rewrite app_assoc in Eq. apply app_inj_tail in Eq as [-> ->].
    rewrite put_other. 2:{ intros Q. rewrite <- app_assoc in Q. symmetry in Q. apply app_self in Q. now destruct r. }
    destruct r as [|z r]; [now rewrite app_nil_r in E|]. apply (proper_above _ (q ++ z :: r)%list P'); [congruence|]. exists (z :: r). split; auto. discriminate.
  - intros q Nq H1 H2. rewrite put_other in H2 by auto. destruct (N q H1 H2) as ((r & ->) & ->). split; auto. exists (r ++ [c])%list. split; [now destruct r|]. now rewrite app_assoc.
Qed.
Print Assumptions C67_written.

(** When it succeeds. *)
Theorem C67_succeeds : forall s t fs p create text, proper fs -> p <> [] -> to_string s t true = Some text -> fs p <> Some Dir ->
  (forall q x, above q p -> fs q <> Some (File x)) -> (fs (removelast p) <> None \/ create = true) -> snd (first_call s t fs p create) = None.
Proof.
  intros s t fs p create text P Np T Nd Nf C. unfold first_call, to_file. cbn [cached_call]. unfold to_string in T. rewrite T. destruct (exists_last Np) as (d & c & ->). rewrite removelast_last in *.
  assert (Dd : fs d = Some Dir \/ fs d = None /\ create = true).
  { destruct (fs d) as [[|x]|] eqn:E; auto; [|right; split; auto; destruct C; congruence]. exfalso. apply (Nf d x); auto. exists [c]. split; auto. discriminate. }
  destruct Dd as [Dd|[Dd ->]]; rewrite Dd; cbn [fst snd].
  - unfold write_text. rewrite removelast_last, Dd. destruct (fs (d ++ [c])%list) as [[|]|]; try reflexivity. congruence.
  - destruct (makedirs_spec d fs [] P (pr_root fs P)) as (I1 & I2 & I3 & I4 & I5). destruct (snd (makedirs fs [] d)) as [e|] eqn:E; cbn [snd].
    + exfalso. destruct (I5 e eq_refl) as (_ & r & r' & x & -> & F). apply (Nf r x); auto. exists (r' ++ [c])%list. split; [now destruct r'|]. now rewrite app_assoc.
    + unfold write_text. rewrite removelast_last. specialize (I4 eq_refl d []). rewrite app_nil_r in I4. cbn [app] in I4. rewrite (I4 eq_refl).
      destruct (fst (makedirs fs [] d) (d ++ [c])%list) as [[|]|] eqn:E2; try reflexivity. exfalso.
      destruct (fs (d ++ [c])%list) eqn:E3; [rewrite I2, E3 in E2; congruence|].
      destruct (I3 _ E3) as (_ & r & r' & _ & Ed & Q); [congruence|]. cbn [app] in Q. subst r. rewrite <- app_assoc in Ed. apply app_self in Ed. discriminate.
Qed.
Print Assumptions C67_succeeds.

(** Without permission nothing happens; no failing call touches a file, or removes anything. *)
Theorem C67_refused : forall s t fs p, fs (removelast p) = None -> first_call s t fs p false = (fs, Some NotPermitted).
Proof. intros s t fs p H. unfold first_call, to_file. now rewrite H. Qed.
Print Assumptions C67_refused.
Theorem C67_failure_partial : forall s t fs p create e, proper fs -> snd (first_call s t fs p create) = Some e ->
  forall q, fst (first_call s t fs p create) q = fs q \/ fs q = None /\ fst (first_call s t fs p create) q = Some Dir /\ create = true.
Proof.
  intros s t fs p create e P H q. unfold first_call, to_file in *. cbn [cached_call] in *. set (made := match fs (removelast p) with None => _ | Some _ => _ end) in *.
  assert (M : fst made q = fs q \/ fs q = None /\ fst made q = Some Dir /\ create = true).
  { unfold made. destruct (fs (removelast p)); [now left|]. destruct create; [|now left]. destruct (makedirs_spec (removelast p) fs [] P (pr_root fs P)) as (_ & I2 & I3 & _ & _).
    destruct (fs q) eqn:E; [left; rewrite I2; congruence|]. destruct (fst (makedirs fs [] (removelast p)) q) eqn:F; auto. right. destruct (I3 q E) as (D & _); [congruence|]. rewrite F in D. auto. }
  destruct (snd made); [exact M|]. destruct (option_map format_node_strings (get_strs s t true)) as [text|]; [|exact M]. cbn [fst snd] in *. unfold write_text in *.
  destruct (fst made (removelast p)) as [[|]|]; try exact M. destruct (fst made p) as [[|]|]; try exact M; discriminate.
Qed.
Print Assumptions C67_failure_partial.

(** Histories of calls on one tree: which files change, and what they hold.  The text is that of [to_string()] except after a
    [to_string(include_imports=False)] that came before every other generation of the text. *)
Lemma to_file_effect strs attr fs p create : proper fs ->
  let fs' := fst (snd (to_file strs attr fs p create)) in
  proper fs' /\ (fst (to_file strs attr fs p create) = attr \/ fst (to_file strs attr fs p create) = snd (cached_call strs attr true)) /\
  forall q, fs' q = fs q \/ fs q = None /\ fs' q = Some Dir /\ create = true /\ above q p \/
    q = p /\ exists r, fst (cached_call strs attr true) = Some r /\ fs' q = Some (File (format_node_strings r)).
Proof.
  intros P. unfold to_file. set (made := match fs (removelast p) with None => _ | Some _ => _ end).
  assert (M : proper (fst made) /\ forall q, fst made q = fs q \/ fs q = None /\ fst made q = Some Dir /\ create = true /\ above q p).
  { unfold made. destruct (fs (removelast p)) eqn:E; [cbn [fst]; auto|]. destruct create; [|cbn [fst]; auto].
    destruct (makedirs_spec (removelast p) fs [] P (pr_root fs P)) as (I1 & I2 & I3 & _ & _). split; auto. intros q.
    destruct (fs q) eqn:Eq; [left; rewrite I2; congruence|]. destruct (fst (makedirs fs [] (removelast p)) q) eqn:F; auto. right.
    destruct (I3 q Eq) as (D & r & r' & N & Er & ->); [congruence|]. rewrite F in D. repeat split; auto. cbn [app].
    destruct p as [|a p0]; [cbn in Er; destruct r; [congruence|discriminate]|]. exists (r' ++ [last (a :: p0) ""])%list. split; [now destruct r'|].
    rewrite app_assoc. change (([] ++ r)%list) with r. rewrite <- Er. apply app_removelast_last. discriminate. }
  destruct M as (M1 & M2). assert (M3 : forall (Q : path -> Prop) q, fst made q = fs q \/ fs q = None /\ fst made q = Some Dir /\ create = true /\ above q p \/ Q q).
  { intros Q q. destruct (M2 q); auto. }
  cbv zeta. destruct (snd made) as [e|]; [cbn [fst snd]; split; [exact M1|split; [now left|intros q; apply (M3 (fun q => q = p /\ _))]]|].
  destruct (cached_call strs attr true) as [r attr'] eqn:C. cbn [fst snd]. destruct r as [r|]; cbn [option_map].
  - cbn [fst snd]. unfold write_text. destruct (fst made (removelast p)) as [[|x]|] eqn:D.
    + destruct (fst made p) as [e0|] eqn:Fp.
      * destruct e0 as [|x]; cbn [fst]; [split; [exact M1|split; [now right|intros q; apply (M3 (fun q => q = p /\ _))]]|].
        split; [|split; [now right|]].
        -- split; [rewrite put_other; [apply M1|intros ->; pose proof (pr_root _ M1); congruence]|]. intros q c H. assert (Nq : fst made (q ++ [c])%list <> None).
           { destruct (list_eq_dec string_dec p (q ++ [c])%list) as [<-|N]; [congruence|now rewrite put_other in H]. }
           pose proof (pr_parent _ M1 q c Nq) as Dq. rewrite put_other; auto. intros ->. congruence.
        -- intros q. destruct (list_eq_dec string_dec p q) as [<-|N]; [right; right; split; auto; exists r; split; auto; apply put_same|]. rewrite put_other by auto. apply (M3 (fun q => q = p /\ _)).
      * cbn [fst]. assert (Np : p <> []) by (intros ->; pose proof (pr_root _ M1); congruence). split; [|split; [now right|]].
        -- split; [rewrite put_other; [apply M1|auto]|]. intros q c H. destruct (list_eq_dec string_dec p (q ++ [c])%list) as [->|N].
           ++ rewrite removelast_last in D. rewrite put_other; auto. intros E. symmetry in E. apply app_self in E. discriminate.
           ++ rewrite put_other in H by auto. pose proof (pr_parent _ M1 q c H) as Dq. rewrite put_other; auto. intros ->. congruence.
        -- intros q. destruct (list_eq_dec string_dec p q) as [<-|N]; [right; right; split; auto; exists r; split; auto; apply put_same|]. rewrite put_other by auto. apply (M3 (fun q => q = p /\ _)).
    + cbn [fst]. split; [exact M1|split; [now right|intros q; apply (M3 (fun q => q = p /\ _))]].
    + cbn [fst]. split; [exact M1|split; [now right|intros q; apply (M3 (fun q => q = p /\ _))]].
  - cbn [fst snd]. split; [exact M1|split; [now right|intros q; apply (M3 (fun q => q = p /\ _))]].
Qed.

(** The text that a call of [to_file] after these calls writes: with the imports, unless the first call was
    [to_string(include_imports=False)]; without them only if that is the first call of [to_string]. *)
Inductive Cached_text (s : strategies) (t : tree) (before : list op) : string -> Prop :=
  | text_with : forall text, (forall later, before <> OString false :: later) -> to_string s t true = Some text -> Cached_text s t before text
  | text_without : forall text earlier later, before = (earlier ++ OString false :: later)%list -> (forall b, ~ In (OString b) earlier) ->
      to_string s t false = Some text -> Cached_text s t before text.

Lemma run_effect s t : forall ops fs before attr, proper fs ->
  (attr = None /\ (forall b, ~ In (OString b) before) \/ attr = Some (get_strs s t true) /\ (exists o later, before = o :: later /\ o <> OString false) \/
   attr = Some (get_strs s t false) /\ exists earlier later, before = (earlier ++ OString false :: later)%list /\ forall b, ~ In (OString b) earlier) ->
  proper (Output.run (get_strs s t) attr fs ops) /\
  forall q, Output.run (get_strs s t) attr fs ops q = fs q \/
    fs q = None /\ Output.run (get_strs s t) attr fs ops q = Some Dir /\ (exists p, In (OFile p true) ops /\ above q p) \/
    exists create earlier later text, ops = (earlier ++ OFile q create :: later)%list /\ Cached_text s t (before ++ earlier) text /\
      Output.run (get_strs s t) attr fs ops q = Some (File text).
Proof.
  induction ops as [|o ops IH]; intros fs before attr P A; [cbn [Output.run]; auto|]. destruct o as [b|p create]; cbn [Output.run].
  - destruct (IH fs (before ++ [OString b])%list (snd (cached_call (get_strs s t) attr b)) P) as (I1 & I2).
    { unfold cached_call. destruct A as [(-> & A)|[(-> & o & l & -> & A)|(-> & e & l & -> & A)]]; cbn [snd].
      - destruct b; [right; left; split; auto; destruct before as [|o before]; [exists (OString true), []; split; [reflexivity|discriminate]|]; exists o, (before ++ [OString true])%list; split; auto; intros ->; apply (A false); now left|].
        right. right. split; auto. exists before, []. auto.
      - right. left. split; auto. exists o, (l ++ [OString b])%list. auto.
      - right. right. split; auto. exists e, (l ++ [OString b])%list. split; auto. now rewrite <- app_assoc. }
    split; auto. intros q. destruct (I2 q) as [H|[(H1 & H2 & p & H3 & H4)|(c & e & l & text & -> & H2 & H3)]]; auto.
    + right. left. repeat split; auto. exists p. split; auto. now right.
    + right. right. exists c, (OString b :: e), l, text. rewrite <- app_assoc in H2. auto.
  - destruct (to_file_effect (get_strs s t) attr fs p create P) as (E1 & E2 & E3). set (x := to_file (get_strs s t) attr fs p create) in *.
    destruct (IH (fst (snd x)) (before ++ [OFile p create])%list (fst x) E1) as (I1 & I2).
    { destruct A as [(-> & A)|[(-> & o & l & -> & A)|(-> & e & l & -> & A)]].
      - destruct E2 as [->| ->]; [left; split; auto; intros b I; apply in_app_iff in I as [I|[I|[]]]; [now apply A in I|discriminate]|]. right. left. split; auto.
        destruct before as [|o before]; [exists (OFile p create), []; split; [reflexivity|discriminate]|]. exists o, (before ++ [OFile p create])%list. split; auto. intros ->. apply (A false). now left.
      - destruct E2 as [->| ->]; right; left; (split; [reflexivity|]); exists o, (l ++ [OFile p create])%list; auto.
      - destruct E2 as [->| ->]; right; right; (split; [reflexivity|]); exists e, (l ++ [OFile p create])%list; (split; [now rewrite <- app_assoc|exact A]). }
    split; auto. intros q.
    assert (T : forall r, fst (cached_call (get_strs s t) attr true) = Some r -> Cached_text s t before (format_node_strings r)).
    { intros r H. destruct A as [(-> & A)|[(-> & o & l & -> & A)|(-> & e & l & -> & A)]]; cbn [cached_call fst] in H.
      - apply text_with; [|unfold to_string; now rewrite H]. intros l ->. apply (A false). now left.
      - apply text_with; [|unfold to_string; now rewrite H]. intros l' E. injection E as E _. contradiction.
      - apply text_without with e l; auto. unfold to_string. now rewrite H. }
    destruct (I2 q) as [H|[(H1 & H2 & p' & H3 & H4)|(c & e & l & text & -> & H2 & H3)]].
    + rewrite H. destruct (E3 q) as [E|[(N & D & -> & Ab)|(-> & r & R & F)]]; auto.
      * right. left. repeat split; auto. exists p. split; auto. now left.
      * right. right. exists create, [], ops, (format_node_strings r). rewrite app_nil_r. auto.
    + destruct (E3 q) as [E|[(N & D & _)|(_ & r & _ & F)]]; try congruence. right. left. rewrite <- E. repeat split; auto. exists p'. split; auto. now right.
    + right. right. exists c, (OFile p create :: e), l, text. rewrite <- app_assoc in H2. auto.
Qed.
Theorem C67_histories_partial : forall s t fs ops, proper fs ->
  let fs' := Output.run (get_strs s t) None fs ops in
  proper fs' /\
  forall q, fs' q = fs q \/
    fs q = None /\ fs' q = Some Dir /\ (exists p, In (OFile p true) ops /\ above q p) \/
    exists create before after text, ops = (before ++ OFile q create :: after)%list /\ Cached_text s t before text /\ fs' q = Some (File text).
Proof. intros s t fs ops P. apply (run_effect s t ops fs [] None P). left. split; auto. Qed.
Print Assumptions C67_histories_partial.

Definition here : fsys := fun q => match q with [] => Some Dir | _ => None end.
Lemma here_proper : proper here.
Proof. split; [reflexivity|]. intros p c H. destruct p; [reflexivity|]. now contradiction H. Qed.
(** [len]: a signature, but no source text. *)
Definition no_source : pyval := VFun (PyFun (PyType 951 "builtin_function_or_method") false (Some ("(obj, /)", 1)) None).
(** [to_string(include_imports=False)], then [to_file]: the text without imports; the other order: with them. *)
Example C67_histories_example : exists t, from_data default_strategies as_inserted (vlist [vint]) "Example" = Ok t /\
  Cached_text default_strategies t [OString false] ("Example: TypeAlias = List[int]" ++ nl) /\
  ~ Cached_text default_strategies t [OFile ["x"] true] ("Example: TypeAlias = List[int]" ++ nl) /\
  Output.run (get_strs default_strategies t) None here [OFile ["d"; "x.py"] true; OString false] ["d"] = Some Dir.
Proof.
  eexists. split; [vm_compute; reflexivity|]. split; [apply text_without with [] []; [reflexivity|now intros b []|vm_compute; reflexivity]|]. split; [|vm_compute; reflexivity].
  intros H. remember [OFile ["x"] true] as before eqn:E. remember ("Example: TypeAlias = List[int]" ++ nl) as y eqn:Y. destruct H as [x _ X|x e l -> _ _]; [subst x; vm_compute in X; discriminate X|]. destruct e as [|? [|? ?]]; discriminate E.
Qed.
Theorem C67_to_file_refuted :
  (* a failing call leaves a new directory *)
  (exists t, from_data default_strategies as_inserted no_source "Example" = Ok t /\
     snd (first_call default_strategies t here ["out"; "x.py"] true) = Some NoText /\ here ["out"] = None /\
     fst (first_call default_strategies t here ["out"; "x.py"] true) ["out"] = Some Dir) /\
  (* after to_string(include_imports=False) the file has no imports *)
  (exists t text, from_data default_strategies as_inserted (vlist [vint]) "Example" = Ok t /\ to_string default_strategies t true = Some text /\
     run (get_strs default_strategies t) None here [OString false; OFile ["x.py"] false] ["x.py"] = Some (File ("Example: TypeAlias = List[int]" ++ nl)) /\
     text <> "Example: TypeAlias = List[int]" ++ nl).
Proof.
  split.
  - eexists. split; [vm_compute; reflexivity|]. repeat split; vm_compute; reflexivity.
  - do 2 eexists. split; [vm_compute; reflexivity|]. split; [vm_compute; reflexivity|]. split; [vm_compute; reflexivity|]. vm_compute. discriminate.
Qed.
Print Assumptions C67_to_file_refuted.
Example C67_example : proper here /\ exists t text, from_data default_strategies as_inserted (vlist [vint]) "Example" = Ok t /\ to_string default_strategies t true = Some text /\
  snd (first_call default_strategies t here ["a"; "b"; "x.py"] true) = None /\ fst (first_call default_strategies t here ["a"; "b"; "x.py"] true) ["a"] = Some Dir.
Proof. split; [exact here_proper|]. do 2 eexists. split; [vm_compute; reflexivity|]. split; [vm_compute; reflexivity|]. split; vm_compute; reflexivity. Qed.

(** ** C68: rename_declaration.
    Full claim: of a declaration of the name N it returns the declaration with N replaced, and N.
    What it does to every text is stated by [C68_all_declarations]; the claim follows for [N = T] where T has no further "=",
    and for classes without "=" and without a further "class X" after the name (the forms of the project's tests); refuted
    for what the tool itself writes. *)
Theorem C68_all_declarations : forall d new d' old, rename_declaration d new = (d', old) <-> Renames new d d' old.
Proof. exact rename_declaration_exact. Qed.
Print Assumptions C68_all_declarations.
(** The word must be followed by white space; every place is replaced; "classy x" is none. *)
Example C68_places :
  Renames (fun n => "_" ++ n) ("class A(B):" ++ nl ++ "  classy subclass C, class	D") ("class _A(B):" ++ nl ++ "  classy subclass _A, class _A") "A" /\
  Renames (fun n => "_" ++ n) "class (classy)" "class (classy)" "".
Proof. split; apply rename_declaration_exact; vm_compute; reflexivity. Qed.

Definition ascii_word (c : ascii) : Prop :=
  let n := nat_of_ascii c in 48 <= n <= 57 \/ 65 <= n <= 90 \/ n = 95 \/ 97 <= n <= 122.
Definition word_name (x : string) : Prop := x <> "" /\ Forall ascii_word (chars x).
Definition without (part x : string) : Prop := forall a b, x <> a ++ part ++ b.
(** What follows the name of a class: not a further character of the name. *)
Definition ends_name (rest : string) : Prop := rest = "" \/ exists c r, rest = String c r /\ (c = "("%char \/ c = ":"%char).

Lemma ascii_word_ok c : ascii_word c -> is_word_char c = true /\ is_space c = false /\ Ascii.eqb (chr 61) c = false.
Proof.
  intros H. assert (B : (let n := nat_of_ascii c in (Nat.leb 48 n && Nat.leb n 57) || (Nat.leb 65 n && Nat.leb n 90) || Nat.eqb n 95 || (Nat.leb 97 n && Nat.leb n 122)) = true).
  { unfold ascii_word in H. cbv zeta in *. destruct H as [H|[H|[H|H]]]; rewrite !orb_true_iff, !andb_true_iff, !Nat.leb_le, Nat.eqb_eq; lia. }
  destruct c as [[] [] [] [] [] [] [] []]; (vm_compute in B; discriminate B) || (clear; vm_compute; auto).
Qed.
Lemma without_no part x : without part x -> contains part x = false.
Proof. intros H. destruct (contains part x) eqn:E; auto. apply contains_spec in E as (a & b & E). now apply H in E. Qed.
Lemma word_no_eq x : Forall ascii_word (chars x) -> no_char (chr 61) x.
Proof.
  unfold no_char. induction x as [|c x IH]; cbn [chars str_forall]; auto. intros H. inversion H; subst. destruct (ascii_word_ok c) as (_ & _ & ->); auto.
Qed.
Lemma word_rstrip x : Forall ascii_word (chars x) -> rstrip_by is_space (x ++ " ") = x.
Proof.
  induction x as [|c x IH]; [reflexivity|]. intros H. inversion H; subst. cbn [String.append rstrip_by]. rewrite IH by auto. destruct x; [|reflexivity].
  destruct (ascii_word_ok c) as (_ & -> & _); auto.
Qed.
Lemma word_strip x : word_name x -> strip (x ++ " ") = x.
Proof.
  intros [N F]. unfold strip, strip_by. destruct x as [|c x]; [congruence|]. inversion F; subst. cbn [String.append lstrip_by]. destruct (ascii_word_ok c) as (_ & -> & _); auto.
  apply (word_rstrip (String c x)); auto.
Qed.
Lemma no_eq_char x : without "=" x -> no_char (chr 61) x.
Proof.
  intros H. apply without_no in H. change "=" with (String (chr 61) "") in H. rewrite contains_char in H. unfold no_char. revert H. induction x as [|c x IH]; cbn; auto. rewrite orb_false_iff. intros [-> H]. now apply IH.
Qed.

Theorem C68_alias_partial : forall n value new, word_name n -> without "=" value -> rename_declaration (n ++ " =" ++ value) new = (new n ++ " =" ++ value, n).
Proof.
  intros n value new W H. unfold rename_declaration. rewrite (proj2 (contains_spec "=" _)) by (exists (n ++ " "), value; now rewrite !app_assoc_s).
  replace (n ++ " =" ++ value) with ((n ++ " ") ++ String (chr 61) value) by now rewrite !app_assoc_s.
  rewrite split_char_app, (split_char_single _ value (no_eq_char _ H)).
  - cbn [hd tl String.concat]. now rewrite word_strip.
  - unfold no_char. rewrite str_forall_app. rewrite (word_no_eq n) by apply W. reflexivity.
Qed.
Print Assumptions C68_alias_partial.

Lemma word_prefix_app n rest : Forall ascii_word (chars n) -> ends_name rest -> word_prefix (n ++ rest) = n.
Proof.
  intros F E. induction n as [|c n IH].
  - destruct E as [->|(c & r & -> & [->| ->])]; reflexivity.
  - inversion F; subst. cbn [String.append word_prefix]. destruct (ascii_word_ok c) as (-> & _ & _); auto. now rewrite IH.
Qed.
Lemma drop_app_length a b : drop (String.length a) (a ++ b) = b.
Proof. induction a; cbn; auto. Qed.
Lemma match_class_name n rest : word_name n -> ends_name rest -> match_class ("class " ++ n ++ rest) = Some (n, rest).
Proof.
  intros [N F] E. unfold match_class. change (startswith "class" ("class " ++ n ++ rest)) with true. change (drop 5 ("class " ++ n ++ rest)) with (String (chr 32) (n ++ rest)).
  assert (L : lstrip (String (chr 32) (n ++ rest)) = n ++ rest).
  { unfold lstrip. cbn [lstrip_by]. change (is_space (chr 32)) with true. cbv iota. destruct n as [|c n]; [congruence|]. inversion F; subst. cbn [String.append lstrip_by]. now destruct (ascii_word_ok c) as (_ & -> & _). }
  cbv iota. cbv zeta. rewrite L. destruct (String.eqb_spec (n ++ rest) (String (chr 32) (n ++ rest))) as [Q|_].
  - apply (f_equal String.length) in Q. cbn [String.length] in Q. lia.
  - rewrite word_prefix_app by auto. destruct n as [|c n]; [congruence|]. f_equal. f_equal. apply (drop_app_length (String c n) rest).
Qed.

Lemma search_class_here x w r : match_class x = Some (w, r) -> search_class x = Some w.
Proof. intros H. destruct x; [discriminate|]. cbn [search_class]. now rewrite H. Qed.
Lemma sub_class_here f new x w r : match_class x = Some (w, r) -> sub_class (S f) new x = "class " ++ new ++ sub_class f new r.
Proof. intros H. cbn [sub_class]. now rewrite H. Qed.

(** No "class X" in the text. *)
Definition no_class_in (x : string) : Prop := forall a b, x = a ++ b -> no_head b.
Lemma sub_class_none fuel new : forall x, no_class_in x -> sub_class fuel new x = x.
Proof.
  induction fuel as [|f IH]; intros x H; auto. cbn [sub_class]. rewrite (proj2 (match_class_no x) (H "" x eq_refl)). destruct x as [|c x]; auto. f_equal. apply IH.
  intros a b ->. now apply (H (String c a) b).
Qed.
Lemma without_no_class x : without "class" x -> no_class_in x.
Proof. intros H a b -> n rest (gap & -> & _). now apply (H a (gap ++ n ++ rest)). Qed.
Theorem C68_class_partial : forall n rest new, word_name n -> ends_name rest -> without "=" rest -> no_class_in rest ->
  rename_declaration ("class " ++ n ++ rest) new = ("class " ++ new n ++ rest, n).
Proof.
  intros n rest new W E H1 H2. unfold rename_declaration.
  assert (C : contains "=" ("class " ++ n ++ rest) = false).
  { change "=" with (String (chr 61) ""). rewrite contains_char. cbn. rewrite str_exists_app. pose proof (word_no_eq n (proj2 W)) as A. pose proof (no_eq_char rest H1) as B.
    unfold no_char in *. revert A B. clear. intros A B. apply orb_false_iff. split.
    - revert A. clear. induction n; cbn; auto. rewrite andb_true_iff, negb_true_iff. intros [-> A]. auto.
    - revert B. clear. induction rest; cbn; auto. rewrite andb_true_iff, negb_true_iff. intros [-> B]. auto. }
  rewrite C. change (startswith "class " ("class " ++ n ++ rest)) with true. cbv iota. pose proof (match_class_name n rest W E) as M.
  rewrite (search_class_here _ _ _ M). f_equal. replace (String.length ("class " ++ n ++ rest)) with (S (5 + String.length (n ++ rest))) by reflexivity. rewrite (sub_class_here _ _ _ _ _ M). now rewrite sub_class_none.
Qed.
Print Assumptions C68_class_partial.
Example C68_example :
  rename_declaration "MyList = List[str]" (fun _ => "New") = ("New = List[str]", "MyList") /\
  rename_declaration ("class MyClass(Protocol):" ++ nl ++ "    ...") (fun n => "_" ++ n) = ("class _MyClass(Protocol):" ++ nl ++ "    ...", "MyClass").
Proof. split; vm_compute; reflexivity. Qed.


(** Refuted for the declarations of the tool: an annotated alias gives a wrong old name; the "=" of a default value
    cuts a class in two; and the "=" after the first are lost. *)
Definition with_default : pyval := VFun (PyFun (PyType 950 "function") false (Some ("(x=1)", 1)) (Some true)).
Definition underscored (d : string) : string * string := rename_declaration d (fun n => "_" ++ n).
Theorem C68_rename_refuted :
  (exists t d, from_data default_strategies as_inserted (vlist [vint]) "Example" = Ok t /\ declarations default_strategies t = Some [d] /\
     underscored d = ("_Example: TypeAlias = List[int]", "Example: TypeAlias")) /\
  (exists t d, from_data default_strategies as_inserted with_default "Example" = Ok t /\ declarations default_strategies t = Some [d] /\
     d = "class Example(Protocol):" ++ nl ++ "    def __call__(x=1) -> Any: ..." /\
     underscored d = ("_class Example(Protocol):" ++ nl ++ "    def __call__(x =1) -> Any: ...", "class Example(Protocol):" ++ nl ++ "    def __call__(x")) /\
  (exists t d, from_data default_strategies as_inserted (vdict [("a=b", vint)]) "Example" = Ok t /\ declarations default_strategies t = Some [d] /\
     contains """a=b""" d = true /\ contains """a=b""" (fst (underscored d)) = false /\ contains """ab""" (fst (underscored d)) = true).
Proof.
  split; [|split]; do 2 eexists; (split; [vm_compute; reflexivity|]); (split; [vm_compute; reflexivity|]).
  - vm_compute. reflexivity.
  - split; [vm_compute; reflexivity|vm_compute; reflexivity].
  - repeat split; vm_compute; reflexivity.
Qed.
Print Assumptions C68_rename_refuted.

(** ** C69: make_parent_class_inherit_from_original_type.
    Full claim: the last declaration gets the name _N, and a class N with the base _N follows.
    What happens to every tree is stated by [C69_all_trees]; the claim follows for class roots without "=" and "class X" after
    the name and for [N = T] without a further "="; it fails for every root that is an annotated alias. *)
Lemma get_strs_nonnil s t b l : get_strs s t b = Some l -> l <> [].
Proof. unfold get_strs. destruct (declarations s t) as [[|d ds]|]; try discriminate. destruct b; [destruct (format_imports 90 _); [|discriminate]|]; cbn [option_map]; intros H; injection H as <-; discriminate. Qed.
Theorem C69_all_trees : forall s t include_imports out, get_strs_inheriting s t include_imports = Some out <->
  exists l d d' old, get_strs s t include_imports = Some (app l [d]) /\ Renames (fun n => "_" ++ n) d d' old /\
    out = app l [d'; "class " ++ old ++ "(_" ++ old ++ "):" ++ end_of_line ++ "    ..."].
Proof.
  intros s t b out. unfold get_strs_inheriting. split.
  - destruct (get_strs s t b) as [x|] eqn:E; [|discriminate]. destruct (exists_last (get_strs_nonnil s t b x E)) as (l & d & ->). cbn [option_map]. unfold inheriting.
    rewrite last_last, removelast_last. destruct (rename_declaration d (fun n => "_" ++ n)) as [d' old] eqn:R. intros H. injection H as <-.
    exists l, d, d', old. split; auto. split; auto. now apply rename_declaration_exact.
  - intros (l & d & d' & old & -> & R & ->). cbn [option_map]. unfold inheriting. rewrite last_last, removelast_last. apply rename_declaration_exact in R. now rewrite R.
Qed.
Print Assumptions C69_all_trees.

Theorem C69_inherits_partial : forall s t include_imports l n rest, get_strs s t include_imports = Some (app l ["class " ++ n ++ rest]) ->
  word_name n -> ends_name rest -> without "=" rest -> no_class_in rest ->
  get_strs_inheriting s t include_imports = Some (app l ["class _" ++ n ++ rest; "class " ++ n ++ "(_" ++ n ++ "):" ++ nl ++ "    ..."]).
Proof.
  intros s t b l n rest H W E H1 H2. unfold get_strs_inheriting. rewrite H. cbn [option_map]. unfold inheriting. rewrite last_last, removelast_last.
  rewrite (C68_class_partial n rest (fun n => "_" ++ n) W E H1 H2). reflexivity.
Qed.
Print Assumptions C69_inherits_partial.
Example C69_example : exists t text, from_data default_strategies as_inserted (vdict [("a", vint)]) "Example" = Ok t /\
  get_strs default_strategies t false = Some (app [] ["class " ++ "Example" ++ "(TypedDict):" ++ nl ++ "    a: int"]) /\
  option_map format_node_strings (get_strs_inheriting default_strategies t false) = Some text /\
  text = "class _Example(TypedDict):" ++ nl ++ "    a: int" ++ nl ++ nl ++ nl ++ "class Example(_Example):" ++ nl ++ "    ...".
Proof. do 2 eexists. split; [vm_compute; reflexivity|]. split; [vm_compute; reflexivity|]. split; vm_compute; reflexivity. Qed.
Theorem C69_inherits_refuted : exists t l, from_data default_strategies as_inserted (vlist [vint]) "Example" = Ok t /\
  get_strs_inheriting default_strategies t false = Some l /\
  l = ["_Example: TypeAlias = List[int]"; "class Example: TypeAlias(_Example: TypeAlias):" ++ nl ++ "    ..."].
Proof. do 2 eexists. split; [vm_compute; reflexivity|]. split; vm_compute; reflexivity. Qed.
Print Assumptions C69_inherits_refuted.

(** A root of the form [N = T] (TypedDict in functional syntax). *)
Theorem C69_assigned_partial : forall s t include_imports l n value, get_strs s t include_imports = Some (app l [n ++ " =" ++ value]) ->
  word_name n -> without "=" value ->
  get_strs_inheriting s t include_imports = Some (app l ["_" ++ n ++ " =" ++ value; "class " ++ n ++ "(_" ++ n ++ "):" ++ nl ++ "    ..."]).
Proof.
  intros s t b l n value H W V. unfold get_strs_inheriting. rewrite H. cbn [option_map]. unfold inheriting. rewrite last_last, removelast_last.
  rewrite (C68_alias_partial n value (fun n => "_" ++ n) W V). reflexivity.
Qed.
Print Assumptions C69_assigned_partial.
Example C69_assigned_example : exists t value, from_data default_strategies as_inserted (vdict [("a b", vint)]) "Example" = Ok t /\
  get_strs default_strategies t false = Some (app [] ["Example" ++ " =" ++ value]) /\ contains "=" value = false /\
  value = " TypedDict(" ++ nl ++ "    ""Example""," ++ nl ++ "    {" ++ nl ++ "        ""a b"": int," ++ nl ++ "    }," ++ nl ++ ")".
Proof. do 2 eexists. split; [vm_compute; reflexivity|]. split; [vm_compute; reflexivity|]. split; vm_compute; reflexivity. Qed.

(** Every annotated alias gives a class statement with the annotation in it. *)
Theorem C69_alias_wrong : forall s t include_imports l n value, get_strs s t include_imports = Some (app l [n ++ ": TypeAlias = " ++ value]) ->
  word_name n -> without "=" value ->
  get_strs_inheriting s t include_imports =
    Some (app l ["_" ++ n ++ ": TypeAlias = " ++ value; "class " ++ n ++ ": TypeAlias(_" ++ n ++ ": TypeAlias):" ++ nl ++ "    ..."]).
Proof.
  intros s t b l n value H W V. apply C69_all_trees. exists l, (n ++ ": TypeAlias = " ++ value), ("_" ++ n ++ ": TypeAlias = " ++ value), (n ++ ": TypeAlias").
  split; [exact H|]. split; [|cbn [String.append]; now rewrite !app_assoc_s].
  replace (n ++ ": TypeAlias = " ++ value) with ((n ++ ": TypeAlias ") ++ "=" ++ (" " ++ value)) by now rewrite !app_assoc_s.
  replace ("_" ++ (n ++ ": TypeAlias ") ++ "=" ++ " " ++ value) with (("_" ++ n ++ ": TypeAlias") ++ " =" ++ (" " ++ value)) by now rewrite !app_assoc_s.
  apply (renames_value (fun n => "_" ++ n)).
  - rewrite chars_app. intros I. apply in_app_iff in I as [I|I].
    + assert (F : no_char (chr 61) n) by (apply word_no_eq; apply W). apply no_char_chars in F. now apply F.
    + cbn in I. repeat (destruct I as [I|I]; [discriminate|]). destruct I.
  - exists "", " ". split; [cbn [String.append]; now rewrite app_assoc_s|]. split; [constructor|]. split; [constructor; [cbn; tauto|constructor]|].
    destruct W as [N F]. destruct n as [|c n]; [congruence|]. split; right.
    + exists c, (n ++ ": TypeAlias"). split; auto. inversion F; subst. destruct (ascii_word_ok c) as (_ & S1 & _); auto. intros Wc. apply DocstringFacts.is_space_white in Wc. congruence.
    + exists (String c n ++ ": TypeAlia"), "s"%char. split; [now rewrite app_assoc_s|]. cbv. intros Wc. repeat (destruct Wc as [Wc|Wc]; try lia).
  - cbn [chars filter String.append]. change (negb (Ascii.eqb " " equals_sign)) with true. cbv iota. f_equal.
    assert (F : ~ In equals_sign (chars value)).
    { intros I. apply first_part in I as (a & b' & -> & _). now apply (V a b'). }
    clear - F. induction (chars value) as [|c l IH]; auto. cbn [filter]. destruct (Ascii.eqb c equals_sign) eqn:E.
    + apply Ascii.eqb_eq in E. subst. exfalso. apply F. now left.
    + cbn [negb]. f_equal. apply IH. intros I. apply F. now right.
Qed.
Print Assumptions C69_alias_wrong.
