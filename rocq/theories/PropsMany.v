(** C42 for any number of callers, whatever their file names. *)
From Coq Require Import Ascii String List Bool Arith Lia.
From Verif Require Import PyStr PyStrFacts Exc Yaml YamlMore YamlLoad YamlLoadFacts YamlMany PropsYamlCalls.
Import ListNotations.
Local Open Scope string_scope.

Section Callers.
  Context {V H : Type}.
  Variable loader : string -> exc V.
  Variable from_data : V -> exc H.
  Variable tempdir : string.
  Hypothesis F1 : forall t, loader t <> NoFuel.
  Hypothesis F2 : forall w, from_data w <> NoFuel.
  Notation call := (path * positions_arg)%type.

  (** The copy that a call writes, if nothing fails before. *)
  Definition copy_of (fs : files) (c : call) (x : string) : Prop :=
    exists text v, usable (fst c) (snd c) /\ fs (fst c) = Some text /\ loader text = Val v /\ temporary_string (Yaml (snd (fst c)) (splitlines text) (positions_of (snd c))) = Val x.
  (** What a call answers if it finds the text [x] instead of its copy; where it does not get that far, what it answers alone. *)
  Inductive Finds (fs : files) (c : call) (x : string) : exc H -> Prop :=
    | finds_hints : forall own v w h, copy_of fs c own -> load loader fs (fst c) = Val v -> loader x = Val w -> from_data w = Val h -> Finds fs c x (Val h)
    | finds_nothing : forall own v, copy_of fs c own -> load loader fs (fst c) = Val v -> (forall w h, loader x = Val w -> from_data w <> Val h) -> Finds fs c x (from_data v)
    | finds_early : forall r, (forall own, ~ copy_of fs c own) -> Answer loader from_data fs (fst c) (Some (snd c)) r -> Finds fs c x r.

  Variable calls : list call.
  Variable fs0 : files.
  Hypothesis Apart : forall c d, In c calls -> In d calls -> fst c <> temp_path tempdir (fst d).
  Notation temp c := (temp_path tempdir (fst c)).

  (** A text that can be in the temporary file of [c]: empty, or a copy written by a call with the same file name. *)
  Definition maybe (c : call) (x : string) : Prop := x = "" \/ exists d, In d calls /\ snd (fst d) = snd (fst c) /\ copy_of fs0 d x.
  Definition alone (i : nat) (c : call) : Prop := forall j d, nth_error calls j = Some d -> snd (fst d) = snd (fst c) -> j = i.

  (** The state of a caller when the files are [fs]. *)
  Definition fine (i : nat) (c : call) (s : @pstate V H) (fs : files) : Prop :=
    match s with
    | Start => True
    | Opened y => exists text, usable (fst c) (snd c) /\ fs0 (fst c) = Some text /\ y = Yaml (snd (fst c)) (splitlines text) (positions_of (snd c))
    | Loaded y v => exists text, usable (fst c) (snd c) /\ fs0 (fst c) = Some text /\ y = Yaml (snd (fst c)) (splitlines text) (positions_of (snd c)) /\ loader text = Val v
    | Truncated x v => copy_of fs0 c x /\ load loader fs0 (fst c) = Val v /\ exists z, fs (temp c) = Some z /\ maybe c z
    | Written v => load loader fs0 (fst c) = Val v /\ exists own z, copy_of fs0 c own /\ fs (temp c) = Some z /\ maybe c z /\ (alone i c -> z = own)
    | Done r => exists x, Finds fs0 c x r /\ maybe c x /\ (alone i c -> forall own, copy_of fs0 c own -> x = own)
    end.
  Lemma copy_one fs (c : call) x y : copy_of fs c x -> copy_of fs c y -> x = y.
  Proof. intros (t & v & _ & A & _ & B) (t' & v' & _ & A' & _ & B'). congruence. Qed.
  Lemma temp_same (c d : call) : temp c = temp d <-> snd (fst c) = snd (fst d).
  Proof. unfold temp_path. split; [|now intros ->]. intros E. injection E as E. exact E. Qed.
  Lemma own_maybe c x : In c calls -> copy_of fs0 c x -> maybe c x.
  Proof. intros I C. right. exists c. auto. Qed.

  Definition frame (fs : files) : Prop := forall p, (forall d, In d calls -> p <> temp d) -> fs p = fs0 p.

  (** The caller that makes the step. *)
  Lemma step_fine i c s fs : In c calls -> frame fs -> fine i c s fs ->
    let r := step loader from_data tempdir (fst c) (snd c) s fs in
    fine i c (fst r) (snd r) /\ frame (snd r) /\ (forall p, p <> temp c -> snd r p = fs p) /\ (snd r (temp c) = fs (temp c) \/ exists z, snd r (temp c) = Some z /\ maybe c z).
  Proof.
    intros Hc Fr Fi. assert (EO : fs (fst c) = fs0 (fst c)) by (apply Fr; intros d Hd; now apply Apart).
    assert (K : forall s', fine i c s' fs -> fine i c s' fs /\ frame fs /\ (forall p, p <> temp c -> fs p = fs p) /\ (fs (temp c) = fs (temp c) \/ exists z, fs (temp c) = Some z /\ maybe c z)) by auto.
    assert (WR : forall z s', maybe c z -> fine i c s' (write (temp c) z fs) -> fine i c s' (write (temp c) z fs) /\ frame (write (temp c) z fs) /\ (forall p, p <> temp c -> write (temp c) z fs p = fs p) /\ (write (temp c) z fs (temp c) = fs (temp c) \/ exists z', write (temp c) z fs (temp c) = Some z' /\ maybe c z')).
    { intros z s' M Q. split; auto. split; [intros p Hp; rewrite write_other; [now apply Fr|now apply Hp]|]. split; [intros p Hp; now apply write_other|]. right. exists z. split; [apply write_same|auto]. }
    assert (EARLY : forall r, (forall own, ~ copy_of fs0 c own) -> Answer loader from_data fs0 (fst c) (Some (snd c)) r -> fine i c (Done r) fs).
    { intros r N A. exists "". split; [now apply finds_early|]. split; [now left|]. intros _ own O. now contradiction (N own). }
    destruct s as [|y|y v|x v|v|r]; cbn [step].
    - destruct (usable_dec (fst c) (snd c)) as [U|U].
      + rewrite (opens U), EO. destruct (fs0 (fst c)) as [text|] eqn:E0; cbn [fst snd]; apply K.
        * exists text. auto.
        * apply EARLY; [intros own (t & v & _ & X & _); congruence|]. apply answer_missing; auto. intros b Hb. injection Hb as <-. auto.
      + rewrite (refused U). cbn [fst snd]. apply K, EARLY; [intros own (t & v & X & _); contradiction|]. now apply answer_refused.
    - destruct Fi as (text & U & E0 & ->). unfold load. rewrite EO, E0. destruct (loader text) as [v|e|] eqn:L; cbn [fst snd]; [| |exfalso; eapply F1; eauto]; apply K.
      + exists text. auto.
      + apply EARLY; [intros own (t & v & _ & X & Y & _); congruence|]. apply (answer_unreadable _ _ _ _ _ text); auto. intros b Hb. injection Hb as <-. auto.
    - destruct Fi as (text & U & E0 & -> & L). pose proof (temporary_string_fuel (Yaml (snd (fst c)) (splitlines text) (positions_of (snd c)))) as T.
      destruct (temporary_string (Yaml (snd (fst c)) (splitlines text) (positions_of (snd c)))) as [x|e|] eqn:ET; cbn [fst snd]; [| |congruence].
      + apply WR; [now left|]. cbn [fine]. split; [exists text, v; auto|]. split; [unfold load; now rewrite E0|]. exists "". split; [apply write_same|now left].
      + apply K, EARLY; [intros own (t & w & _ & X & _ & Y); congruence|]. apply (answer_fallback _ _ _ _ _ text v); auto. intros h (z & w & X & _). congruence.
    - destruct Fi as (C & L & _). cbn [fst snd]. assert (M : maybe c x) by now apply own_maybe. apply WR; auto. cbn [fine]. split; auto. exists x, x. split; auto. split; [apply write_same|]. auto.
    - destruct Fi as (L & own & z & C & E & M & A). cbn [fst snd]. apply K. exists z. split; [|split; auto; intros Al own' O; rewrite (A Al); eapply copy_one; eauto].
      unfold load. rewrite E. destruct (loader z) as [w|e|] eqn:Lz; cbn [andthen try_else]; [| |exfalso; eapply F1; eauto].
      + destruct (from_data w) as [h|e|] eqn:D; cbn [try_else]; [| |exfalso; eapply F2; eauto].
        * eapply finds_hints; eauto.
        * eapply finds_nothing; eauto. intros w' h X. assert (w' = w) by congruence. subst. congruence.
      + eapply finds_nothing; eauto. intros w' h X. congruence.
    - cbn [fst snd]. now apply K.
  Qed.

  (** The other callers. *)
  Lemma other_fine j d s fs fs' c i : nth_error calls i = Some c -> nth_error calls j = Some d -> i <> j ->
    (forall p, p <> temp c -> fs' p = fs p) -> (fs' (temp c) = fs (temp c) \/ exists z, fs' (temp c) = Some z /\ maybe c z) -> fine j d s fs -> fine j d s fs'.
  Proof.
    intros Hc Hd Ne Q M Fi. destruct s as [|y|y v|x v|v|r]; cbn [fine] in *; auto.
    - destruct Fi as (A & B & z & C & E). split; auto. split; auto.
      destruct (string_dec (snd (fst c)) (snd (fst d))) as [X|X].
      + pose proof (proj2 (temp_same c d) X) as Y. rewrite <- Y in *. destruct M as [M|(z' & M1 & M2)]; [exists z; rewrite M; auto|]. exists z'. split; auto. unfold maybe in *. now rewrite <- X.
      + exists z. rewrite Q; auto. intros Y. apply X. symmetry. now apply temp_same.
    - destruct Fi as (A & own & z & B & C & E & F). split; auto. exists own.
      destruct (string_dec (snd (fst c)) (snd (fst d))) as [X|X].
      + assert (NA : ~ alone j d) by (intros Al; apply Ne; exact (Al i c Hc X)).
        pose proof (proj2 (temp_same c d) X) as Y. rewrite <- Y in *. destruct M as [M|(z' & M1 & M2)]; [exists z; rewrite M; auto|]. exists z'. split; auto. split; auto. split; [unfold maybe in *; now rewrite <- X|]. intros Al. contradiction.
      + exists z. rewrite Q; auto. intros Y. apply X. symmetry. now apply temp_same.
  Qed.

  Definition Inv (cs : list (path * positions_arg * @pstate V H)) (fs : files) : Prop := map fst cs = calls /\ frame fs /\ forall i c s, nth_error cs i = Some (c, s) -> fine i c s fs.
  Lemma turn_spec i : forall cs fs, 
    match nth_error cs i with
    | None => turn loader from_data tempdir i cs fs = (cs, fs)
    | Some (c, s) => let r := step loader from_data tempdir (fst c) (snd c) s fs in
        snd (turn loader from_data tempdir i cs fs) = snd r /\ map fst (fst (turn loader from_data tempdir i cs fs)) = map fst cs /\
        nth_error (fst (turn loader from_data tempdir i cs fs)) i = Some (c, fst r) /\ (forall j, j <> i -> nth_error (fst (turn loader from_data tempdir i cs fs)) j = nth_error cs j)
    end.
  Proof.
    induction i as [|i IH]; intros [|[[p a] s] cs] fs; cbn [nth_error turn]; auto.
    - cbn [fst snd]. destruct (step loader from_data tempdir p a s fs) as [s' fs']. cbn [fst snd map nth_error]. repeat split; auto. intros [|j] Hj; [congruence|reflexivity].
    - specialize (IH cs fs). destruct (nth_error cs i) as [[c s0]|].
      + cbv zeta in *. destruct IH as (A & B & C & E). destruct (turn loader from_data tempdir i cs fs) as [r' fs']. cbn [fst snd map nth_error] in *. split; auto. split; [now rewrite B|]. split; auto. intros [|j] Hj; [reflexivity|]. apply E. lia.
      + rewrite IH. reflexivity.
  Qed.
  Lemma turn_inv i cs fs : Inv cs fs -> Inv (fst (turn loader from_data tempdir i cs fs)) (snd (turn loader from_data tempdir i cs fs)).
  Proof.
    intros (E & Fr & Fi). pose proof (turn_spec i cs fs) as T. destruct (nth_error cs i) as [[c s]|] eqn:N; [|rewrite T; split; auto]. cbv zeta in T. destruct T as (T1 & T2 & T3 & T4).
    assert (Nc : nth_error calls i = Some c) by (rewrite <- E; now rewrite (map_nth_error fst i cs N)).
    destruct (step_fine i c s fs (nth_error_In _ _ Nc) Fr (Fi i c s N)) as (A & B & C & G). cbv zeta in *. rewrite T1. split; [congruence|]. split; auto.
    intros j d s' Hj. destruct (Nat.eq_dec j i) as [->|Ne]; [rewrite T3 in Hj; injection Hj as <- <-; exact A|]. rewrite T4 in Hj by auto.
    assert (Nd : nth_error calls j = Some d) by (rewrite <- E; now rewrite (map_nth_error fst j cs Hj)).
    eapply (other_fine j d s' fs _ c i); eauto.
  Qed.
  Lemma run_inv sched : forall cs fs, Inv cs fs -> Inv (fst (run_many loader from_data tempdir sched cs fs)) (snd (run_many loader from_data tempdir sched cs fs)).
  Proof.
    induction sched as [|i sched IH]; intros cs fs I; cbn [run_many]; auto. pose proof (turn_inv i cs fs I) as I'. destruct (turn loader from_data tempdir i cs fs) as [cs' fs']. now apply IH.
  Qed.
  Lemma start_inv : Inv (starting calls) fs0.
  Proof.
    split; [unfold starting; rewrite map_map; apply map_id|]. split; [intros p _; reflexivity|]. intros i c s N. unfold starting in N. pose proof (nth_error_In _ _ N) as I. apply in_map_iff in I as (d & I & _). injection I as -> <-. exact Logic.I.
  Qed.

  (** Progress: after five turns a caller is done. *)
  Definition left (s : @pstate V H) : nat := match s with Start => 5 | Opened _ => 4 | Loaded _ _ => 3 | Truncated _ _ => 2 | Written _ => 1 | Done _ => 0 end.
  Lemma step_left c s fs : left (fst (step loader from_data tempdir (fst c) (snd c) s fs)) <= pred (left s).
  Proof.
    destruct s; cbn [step fst left pred]; auto.
    - destruct (open_yaml fs (fst c) (snd c)); cbn; lia.
    - destruct (load loader fs (fst c)); cbn; lia.
    - destruct (temporary_string y); cbn; lia.
  Qed.
  Lemma run_left sched : forall cs fs i c s, nth_error cs i = Some (c, s) -> exists s', nth_error (fst (run_many loader from_data tempdir sched cs fs)) i = Some (c, s') /\ left s' <= left s - count_occ Nat.eq_dec sched i.
  Proof.
    induction sched as [|k sched IH]; intros cs fs i c s N; cbn [run_many]; [exists s; split; auto; cbn; lia|].
    pose proof (turn_spec k cs fs) as T. destruct (turn loader from_data tempdir k cs fs) as [cs' fs']. cbn [fst snd] in T.
    destruct (Nat.eq_dec k i) as [->|Ne].
    - rewrite N in T. destruct T as (_ & _ & T & _). destruct (IH cs' fs' i c _ T) as (s' & A & B). exists s'. split; auto. pose proof (step_left c s fs). cbn [count_occ]. destruct (Nat.eq_dec i i); [lia|congruence].
    - assert (N' : nth_error cs' i = Some (c, s)).
      { destruct (nth_error cs k) as [[c' s0]|]; [destruct T as (_ & _ & _ & T); rewrite T; auto|injection T as -> _; auto]. }
      destruct (IH cs' fs' i c s N') as (s' & A & B). exists s'. split; auto. cbn [count_occ]. destruct (Nat.eq_dec k i); [congruence|auto].
  Qed.
End Callers.

(** Every caller that is done found the empty text or a copy written by a call with the same file name, its own one unless there are others; and answers accordingly. *)
Theorem C42_all_schedules : forall (V H : Type) (loader : string -> exc V) (from_data : V -> exc H) tempdir calls fs sched,
  (forall t, loader t <> NoFuel) -> (forall w, from_data w <> NoFuel) ->
  (forall c d, In c calls -> In d calls -> fst c <> (tempdir, "_" ++ snd (fst d))) ->
  let cs := fst (run_many loader from_data tempdir sched (starting calls) fs) in
  map fst cs = calls /\
  forall i c s, nth_error cs i = Some (c, s) ->
    (forall r, s = Done r ->
       (exists x, Finds loader from_data fs c x r /\ (x = "" \/ exists d, In d calls /\ snd (fst d) = snd (fst c) /\ copy_of loader fs d x)) /\
       ((forall j d, nth_error calls j = Some d -> snd (fst d) = snd (fst c) -> j = i) -> r = from_yaml loader from_data tempdir fs (fst c) (Some (snd c)))) /\
    (5 <= count_occ Nat.eq_dec sched i -> exists r, s = Done r).
Proof.
  intros V H loader from_data tempdir calls fs sched F1 F2 Ap cs.
  pose proof (run_inv loader from_data tempdir F1 F2 calls fs Ap sched _ _ (start_inv loader from_data tempdir calls fs)) as (E & Fr & Fi). fold cs in E, Fi. split; auto.
  intros i c s N. split.
  - intros r ->. destruct (Fi i c _ N) as (x & Fx & M & Al). split; [exists x; auto|]. intros A. specialize (Al A). eapply C41_determined; [|now apply C41_all_calls].
    destruct Fx as [own v w h C L X D|own v C L X|r N' A'].
    + specialize (Al own C). subst x. destruct C as (text & v' & U & E0 & L0 & T). apply (answer_copy _ _ _ _ (snd c) text v'); auto. exists own, w. auto.
    + specialize (Al own C). subst x. destruct C as (text & v' & U & E0 & L0 & T). assert (v' = v) by (unfold load in L; rewrite E0 in L; congruence). subst v'. apply (answer_fallback _ _ _ _ (snd c) text v); auto.
      intros h (z & w & Z1 & Z2 & Z3). assert (z = own) by congruence. subst z. exact (X w h Z2 Z3).
    + exact A'.
  - intros Hn. assert (Nc : nth_error calls i = Some c) by (pose proof (map_nth_error fst i cs N) as Q; rewrite E in Q; exact Q).
    assert (N0 : nth_error (@starting V H calls) i = Some (c, Start)) by (exact (map_nth_error (fun c => (c, Start)) i calls Nc)).
    destruct (run_left loader from_data tempdir sched (starting calls) fs i c Start N0) as (s' & A & B). fold cs in A. rewrite N in A. injection A as <-. cbn [left] in B. destruct s; cbn [left] in B; try lia. eauto.
Qed.
Print Assumptions C42_all_schedules.
(** Three callers, two of them with the same file name: the first one gets the hints of the third file, the second one its own. *)
Definition c42_three : files := fun p => if String.eqb (fst p) "d1" then Some "a: 1  # x" else Some "b: 2  # y".
Example C42_three_example :
  let calls := [(("d1", "c.yaml"), One Side); (("d1", "e.yaml"), One Side); (("d2", "c.yaml"), One Side)] in
  (forall c d, In c calls -> In d calls -> fst c <> ("/tmp", "_" ++ snd (fst d))) /\
  map snd (fst (run_many (@Val string) (@Val string) "/tmp" [0; 0; 1; 2; 0; 0; 1; 2; 2; 2; 1; 0; 1; 1; 2] (starting calls) c42_three)) =
    [Done (Val ("___docstring_hidden_key_b: |" ++ nl ++ " y." ++ nl ++ "b: 2  # y")); Done (Val ("___docstring_hidden_key_a: |" ++ nl ++ " x." ++ nl ++ "a: 1  # x"));
     Done (Val ("___docstring_hidden_key_b: |" ++ nl ++ " y." ++ nl ++ "b: 2  # y"))].
Proof.
  split; [|vm_compute; reflexivity]. intros c d Hc _ E. cbn [In] in Hc. destruct Hc as [<-|[<-|[<-|[]]]]; discriminate.
Qed.
