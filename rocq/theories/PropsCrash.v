(** C50 and C52 for every history: objects from before a reset, and crashes between two writes. *)
From Coq Require Import Ascii String List Bool Arith Lia.
From Verif Require Import PyStr Exc Dispatch Values Samples PyFile Live SpecLive LiveText LiveMethods LiveBlocks LiveFacts LiveHistory LiveCounts LiveSample PropsLive SpecMachine PropsMachine.
Import ListNotations.
Local Open Scope string_scope.
Local Open Scope nat_scope.

Section After.
  Context {D : Type}.
  Variable generate : D -> string -> exc string.
  Variable valid : string -> Prop.
  Variable agrees : string -> string -> Prop.
  Notation Call := (Call generate valid agrees).
  Notation Acts := (Acts generate valid agrees).
  Notation Runs := (Runs generate valid agrees).

  (** A property of what objects and the stub know, kept by every effect of every call. *)
  Section Kept.
    Variable P : known -> Prop.
    Hypothesis P_call : forall k v fs data c r es, P k -> Call k v fs data c r es -> forall e, In e es -> match e with EStub k' => P k' | EFile _ _ => True end.
    Definition all_know (m : machine) : Prop := (forall k, m_stub m = Some k -> P k) /\ Forall (fun o : known * bool => P (fst o)) (m_objects m).
    Lemma after_kept es : (forall e, In e es -> match e with EStub k' => P k' | EFile _ _ => True end) -> forall d,
      (forall k, fst d = Some k -> P k) -> forall k, fst (fold_left after es d) = Some k -> P k.
    Proof.
      induction es as [|e es IH]; intros H d Hd; cbn [fold_left]; auto. apply IH; [intros; apply H; now right|]. destruct e; cbn [after fst]; auto. intros k' E. injection E as <-. apply (H (EStub k)). now left.
    Qed.
    Lemma memory_kept es : (forall e, In e es -> match e with EStub k' => P k' | EFile _ _ => True end) -> forall k, P k -> P (memory k es).
    Proof. unfold memory. induction es as [|e es IH]; intros H k Hk; cbn [fold_left]; auto. apply IH; [intros; apply H; now right|]. destruct e; auto. apply (H (EStub k0)). now left. Qed.
    Lemma firstn_in {A} n : forall (l : list A) x, In x (firstn n l) -> In x l.
    Proof. induction n as [|n IH]; intros [|y l] x H; cbn [firstn] in H; try destruct H; [now left|right; auto]. Qed.
    Lemma acts_kept m o x m' : Acts m o x m' -> (o <> Reset /\ (m_stub m <> None \/ P nothing)) \/ P nothing -> all_know m -> all_know m'.
    Proof.
      intros H N [A B]. destruct H; unfold all_know; cbn [m_stub m_objects].
      - split; auto. apply Forall_app. split; auto. constructor; [|constructor]. cbn [fst]. destruct (m_stub m) as [k|] eqn:E; [now apply A|]. destruct N as [[_ [N|N]]|N]; [congruence|auto|auto].
      - split; [discriminate|auto].
      - rewrite H in B. apply Forall_app in B as [B1 B2]. inversion B2; subst. cbn [fst] in *.
        assert (K : forall e, In e es -> match e with EStub k' => P k' | EFile _ _ => True end) by (eapply P_call; eauto).
        split; [apply after_kept; auto|]. apply Forall_app. split; auto. constructor; auto. cbn [fst]. now apply memory_kept.
      - rewrite H in B. apply Forall_app in B as [B1 B2]. inversion B2; subst. cbn [fst] in *.
        assert (K : forall e, In e (firstn n es) -> match e with EStub k' => P k' | EFile _ _ => True end) by (intros e He; eapply P_call; eauto; now apply firstn_in in He).
        split; [apply after_kept; auto|constructor].
      - split; auto.
      - split; auto.
    Qed.
    Lemma stub_stays m o x m' : Acts m o x m' -> o <> Reset -> m_stub m <> None -> m_stub m' <> None.
    Proof.
      assert (G : forall es d, fst d <> None -> fst (fold_left after es d) <> None).
      { induction es as [|e es IH]; intros d Hd; cbn [fold_left]; auto. apply IH. destruct e; cbn [after fst]; auto. discriminate. }
      intros H N Hs. destruct H; cbn [m_stub]; auto; try contradiction; apply G; exact Hs.
    Qed.
    Lemma runs_kept m os xs m' : Runs m os xs m' -> P nothing \/ (~ In Reset os /\ m_stub m <> None) -> all_know m -> all_know m'.
    Proof.
      induction 1 as [|m o x m1 os xs m2 A R IH]; intros N K; auto. apply IH.
      - destruct N as [N|[N1 N2]]; [now left|right]. split; [intros X; apply N1; now right|]. eapply stub_stays; eauto. intros ->. apply N1. now left.
      - eapply acts_kept; eauto. destruct N as [N|[N1 N2]]; [now right|left]. split; [intros ->; apply N1; now left|now left].
    Qed.
    Lemma runs_stub m os xs m' : Runs m os xs m' -> ~ In Reset os -> m_stub m <> None -> m_stub m' <> None.
    Proof.
      induction 1 as [|m o x m1 os xs m2 A R IH]; intros N K; auto. apply IH; [intros X; apply N; now right|]. eapply stub_stays; eauto. intros ->. apply N. now left.
    Qed.
  End Kept.

  Lemma call_writes k v fs data c r es : Call k v fs data c r es -> forall k', In (EStub k') es ->
    exists i g y d, k = Known i g y d /\ ~ In c g /\
      (k' = Known i (g ++ [c]) y d \/ k' = Known (c :: i) (g ++ [c]) y d \/ k' = Known (c :: i) (g ++ [c]) y (c :: d) \/ k' = Known (c :: i) (g ++ [c]) (c :: y) (c :: d)).
  Proof.
    intros H k' He. destruct H as [| | | |t0 _ _ _ _ _|t0 i g y d _ _ _ N E]; cbn [In] in He; try tauto.
    - destruct He as [He|[]]. discriminate.
    - subst k. exists i, g, y, d. split; auto. split; auto. destruct He as [He|[He|[He|[He|[He|[]]]]]]; [discriminate|injection He as <-; auto..].
  Qed.
  (** Imported classes and overloads are registered. *)
  Definition registered (k : known) : Prop := incl (k_imports k) (k_registry k) /\ incl (k_yaml k) (k_registry k) /\ incl (k_data k) (k_registry k).
  Lemma registered_call k v fs data c r es : registered k -> Call k v fs data c r es -> forall e, In e es -> match e with EStub k' => registered k' | EFile _ _ => True end.
  Proof.
    intros (A & B & C) H [|k'] He; auto. destruct (call_writes _ _ _ _ _ _ _ H k' He) as (i & g & y & d & -> & _ & [->|[->|[->| ->]]]); unfold registered; cbn [k_imports k_registry k_yaml k_data] in *;
      repeat split; intros z Hz; cbn [In] in Hz; rewrite in_app_iff; cbn [In]; intuition.
  Qed.
  (** [c] is registered, and which of the rest is there is fixed. *)
  Definition stuck (c : string) (i y d : Prop) (k : known) : Prop := In c (k_registry k) /\ (In c (k_imports k) <-> i) /\ (In c (k_yaml k) <-> y) /\ (In c (k_data k) <-> d).
  Lemma stuck_call c i y d k v fs data c' r es : stuck c i y d k -> Call k v fs data c' r es -> forall e, In e es -> match e with EStub k' => stuck c i y d k' | EFile _ _ => True end.
  Proof.
    intros (R & A & B & C) H [|k'] He; auto. destruct (call_writes _ _ _ _ _ _ _ H k' He) as (i' & g & y' & d' & -> & N & E). cbn [k_imports k_registry k_yaml k_data] in *. assert (X : c' <> c) by (intros ->; contradiction).
    destruct E as [->|[->|[->| ->]]]; unfold stuck; cbn [k_imports k_registry k_yaml k_data In]; rewrite in_app_iff; intuition.
  Qed.
End After.

Section Histories.
  Context {D : Type}.
  Variable unparsed : list string.
  Variable generate : D -> string -> exc string.
  Variable t : template.
  Hypothesis Ht : well_formed t = true.
  Hypothesis Hinit : initial_lines unparsed = Val (template_lines t).
  Hypothesis Hgen : forall d c, generate d c <> NoFuel.
  Notation world_of os := (snd (steps unparsed generate clean os)).
  Notation results_of os := (fst (steps unparsed generate clean os)).
  Notation Leads os m := (Runs generate SpecExact.accepted agree fresh os (results_of os) m).

  Lemma next_crash os m a k v b data c n : Leads os m -> m_objects m = (a ++ (k, v) :: b)%list ->
    exists r es, Call generate SpecExact.accepted agree k v (m_files m) data c r es /\ fst (step unparsed generate (world_of os) (Use (List.length a) data c)) = Some r /\
      Leads (os ++ [Crash data c (List.length a) n]) (Machine (fst (afterwards m (firstn n es))) (snd (afterwards m (firstn n es))) []).
  Proof.
    intros R E. destruct (next_call unparsed generate t Ht Hinit Hgen os m a k v b data c R E) as (r & es & C & Er & _). exists r, es. split; auto. split; auto.
    destruct (next_acts unparsed generate t Ht Hinit Hgen os m (Crash data c (List.length a) n) R) as (m' & A & R').
    assert (X : m' = Machine (fst (afterwards m (firstn n es))) (snd (afterwards m (firstn n es))) []); [|now rewrite <- X].
    assert (A' : Acts generate SpecExact.accepted agree m (Crash data c (List.length a) n) None (Machine (fst (afterwards m (firstn n es))) (snd (afterwards m (firstn n es))) [])) by (eapply acts_crash; eauto).
    destruct (C94_determined D generate SpecExact.accepted agree m [Crash data c (List.length a) n] _ _ _ _ (runs_cons _ _ _ _ _ _ _ _ _ _ A (runs_nil _ _ _ _)) (runs_cons _ _ _ _ _ _ _ _ _ _ A' (runs_nil _ _ _ _))) as [_ Y]. exact Y.
  Qed.
  Lemma leads_app os later : forall m, Leads os m -> exists m', Leads (os ++ later) m' /\ exists xs, Runs generate SpecExact.accepted agree m later xs m'.
  Proof.
    revert os. induction later as [|o later IH]; intros os m R.
    - exists m. rewrite app_nil_r. split; auto. exists []. constructor.
    - destruct (next_acts unparsed generate t Ht Hinit Hgen os m o R) as (m1 & A & R1). destruct (IH _ _ R1) as (m' & R2 & xs & R3). rewrite <- app_assoc in R2. cbn [app] in R2. exists m'. split; auto. eexists. econstructor; eauto.
  Qed.
  Lemma leads_registered os m : Leads os m -> all_know registered m.
  Proof.
    intros R. eapply (runs_kept generate SpecExact.accepted agree registered); [intros; eapply registered_call; eauto|exact R| |].
    - left. repeat split; intros ? [].
    - split; [discriminate|constructor].
  Qed.
End Histories.

(** C50 for every history: right after a reset nothing is there, and an object from before it can be used exactly if it registered nothing. *)
Theorem C50_all_calls : forall D unparsed (generate : D -> string -> exc string) t os m a k v b data c,
  well_formed t = true -> initial_lines unparsed = Val (template_lines t) -> (forall d c, generate d c <> NoFuel) ->
  Runs generate SpecExact.accepted agree fresh os (fst (steps unparsed generate clean os)) m -> m_objects m = (a ++ (k, v) :: b)%list ->
  let w := snd (steps unparsed generate clean (os ++ [Reset])) in
  w_disk w = Disk None [] /\
  (fst (step unparsed generate w (Use (List.length a) data c)) = Some (Val data) <-> SpecExact.accepted c /\ k_registry k = [] /\ exists text, generate data c = Val text).
Proof.
  intros D unparsed generate t os m a k v b data c Ht Hi Hg R E w. split; [unfold w; rewrite steps_snoc; reflexivity|].
  destruct (next_acts unparsed generate t Ht Hi Hg os m Reset R) as (m' & A & R'). inversion A; subst m'.
  destruct (C49_all_calls D unparsed generate t (os ++ [Reset]) _ a k v b data c Ht Hi Hg R' E) as [X _]. cbv zeta in X. unfold w. rewrite X. cbn [m_files].
  assert (N : forall x, ~ present [] x) by (intros x (text & l & r & Y & _); destruct l; discriminate).
  split; intros (Y1 & Y2 & text & Y3).
  - split; auto. split; [|exists text; tauto]. destruct (k_registry k) as [|x l]; auto. exfalso. rewrite Forall_forall in Y2. apply (N x), Y2. now left.
  - split; auto. rewrite Y2. split; [constructor|]. exists text. split; auto. intros _ [].
Qed.
Print Assumptions C50_all_calls.

(** C52 for every history, before and after the crash: a call for a new class that would have returned dies after [n] writes.  Once the registry is written nothing but a reset
    changes which of import and overloads of the class are in the stub; before that, the stub is as it was and the next call for the class that returns writes everything. *)
Theorem C52_all_histories : forall D unparsed (generate : D -> string -> exc string) t os m a k v b data c n,
  well_formed t = true -> initial_lines unparsed = Val (template_lines t) -> (forall d c, generate d c <> NoFuel) ->
  Runs generate SpecExact.accepted agree fresh os (fst (steps unparsed generate clean os)) m -> m_objects m = (a ++ (k, v) :: b)%list -> ~ In c (k_registry k) ->
  fst (step unparsed generate (snd (steps unparsed generate clean os)) (Use (List.length a) data c)) = Some (Val data) ->
  let crashed := (os ++ [Crash data c (List.length a) n])%list in
  (2 <= n -> forall later, ~ In Reset later -> exists m' known, Runs generate SpecExact.accepted agree fresh (crashed ++ later) (fst (steps unparsed generate clean (crashed ++ later))) m' /\
     m_stub m' = Some known /\ In c (k_registry known) /\ (In c (k_imports known) <-> 3 <= n) /\ (In c (k_data known) <-> 4 <= n) /\ (In c (k_yaml known) <-> 5 <= n)) /\
  (n <= 1 -> forall v' data', let later := [New v'; Use 0 data' c] in fst (steps unparsed generate (snd (steps unparsed generate clean crashed)) later) = [None; Some (Val data')] ->
     exists m1 m' known, Runs generate SpecExact.accepted agree fresh crashed (fst (steps unparsed generate clean crashed)) m1 /\ m_stub m1 = m_stub m /\
     Runs generate SpecExact.accepted agree fresh (crashed ++ later) (fst (steps unparsed generate clean (crashed ++ later))) m' /\
     match m_stub m with Some before => before | None => nothing end = known /\
     (if existsb (String.eqb c) (k_registry known) then m_stub m' = m_stub m
      else m_stub m' = Some (Known (c :: k_imports known) (k_registry known ++ [c]) (c :: k_yaml known) (c :: k_data known)))).
Proof.
  intros D unparsed generate t os m a k v b data c n Ht Hi Hg R E Hc Hr crashed.
  destruct (next_crash unparsed generate t Ht Hi Hg os m a k v b data c n R E) as (r & es & C & Er & R1). fold crashed in R1. rewrite Hr in Er. injection Er as <-.
  pose proof (leads_registered unparsed generate os m R) as [_ RG]. rewrite E in RG. apply Forall_app in RG as [_ RG]. inversion RG as [|? ? (G1 & G2 & G3) _]; subst. cbn [fst] in *.
  assert (ES : exists text, es = [EFile c text; EStub (Known (k_imports k) (k_registry k ++ [c]) (k_yaml k) (k_data k)); EStub (Known (c :: k_imports k) (k_registry k ++ [c]) (k_yaml k) (k_data k));
      EStub (Known (c :: k_imports k) (k_registry k ++ [c]) (k_yaml k) (c :: k_data k)); EStub (Known (c :: k_imports k) (k_registry k ++ [c]) (c :: k_yaml k) (c :: k_data k))]).
  { inversion C; subst; try contradiction. eexists. reflexivity. }
  destruct ES as (text & ->). split.
  - intros Hn later NR. destruct (leads_app unparsed generate t Ht Hi Hg crashed later _ R1) as (m' & R2 & xs & R3).
    set (m1 := Machine _ _ _) in *.
    assert (K : exists k1, m_stub m1 = Some k1 /\ stuck c (3 <= n) (5 <= n) (4 <= n) k1 /\ m_objects m1 = []).
    { assert (I1 : In c (k_registry k ++ [c])) by (rewrite in_app_iff; cbn; auto). assert (N1 : ~ In c (k_imports k)) by (intros X; apply Hc, G1, X). assert (N2 : ~ In c (k_yaml k)) by (intros X; apply Hc, G2, X). assert (N3 : ~ In c (k_data k)) by (intros X; apply Hc, G3, X).
      unfold m1. destruct n as [|[|[|[|[|n]]]]]; try lia; cbn [m_stub m_objects firstn afterwards fold_left after fst snd]; try rewrite firstn_nil; cbn [fold_left]; eexists; (split; [reflexivity|]); (split; [|reflexivity]); unfold stuck; cbn [k_imports k_registry k_yaml k_data In];
        (split; [exact I1|]); repeat split; intros; try lia; try tauto; try (now left). }
    destruct K as (k1 & K1 & K2 & K3).
    assert (AK : all_know (stuck c (3 <= n) (5 <= n) (4 <= n)) m1) by (split; [intros k' X; congruence|rewrite K3; constructor]).
    assert (SK : m_stub m1 <> None) by (rewrite K1; discriminate).
    destruct (runs_kept generate SpecExact.accepted agree (stuck c (3 <= n) (5 <= n) (4 <= n)) (fun k v fs data c' r es => stuck_call generate SpecExact.accepted agree c _ _ _ k v fs data c' r es) m1 later xs m' R3 (or_intror (conj NR SK)) AK) as [Z _].
    pose proof (runs_stub generate SpecExact.accepted agree m1 later xs m' R3 NR SK) as SN. destruct (m_stub m') as [kn|] eqn:Em; [|congruence]. exists m', kn. destruct (Z kn eq_refl) as (Z1 & Z2 & Z3 & Z4). split; [exact R2|]. auto.
  - intros Hn v' data' HL. set (later := [New v'; Use 0 data' c]) in *.
    set (m1 := Machine _ _ _) in *. assert (M1 : m_stub m1 = m_stub m /\ m_objects m1 = []) by (unfold m1; destruct n as [|[|n]]; [split; reflexivity..|lia]). destruct M1 as [M1 M2].
    destruct (next_acts unparsed generate t Ht Hi Hg crashed m1 (New v') R1) as (m2 & A2 & R2). inversion A2; subst m2.
    set (kn := match m_stub m1 with Some k => k | None => nothing end) in *. rewrite M2 in R2. cbn [app] in R2.
    destruct (next_call unparsed generate t Ht Hi Hg _ _ [] kn v' [] data' c R2 eq_refl) as (r & es & C' & Er & R3). cbn [List.length app] in *.
    assert (r = Val data').
    { unfold later in HL. rewrite steps_snoc in Er. cbn [snd] in Er. rewrite !steps_cons in HL. cbn [fst snd] in HL. congruence. }
    subst r. exists m1. eexists. exists kn. split; [exact R1|]. split; [exact M1|]. replace (crashed ++ later)%list with ((crashed ++ [New v']) ++ [Use 0 data' c])%list by (now rewrite <- app_assoc). split; [exact R3|].
    split; [unfold kn; now rewrite M1|].
    destruct (existsb (String.eqb c) (k_registry kn)) eqn:X.
    + apply existsb_exists in X as (z & Hz & X). apply String.eqb_eq in X. subst z. rewrite <- M1. inversion C'; subst; [reflexivity|]. exfalso. contradiction.
    + assert (NI : ~ In c (k_registry kn)) by (intros I; assert (existsb (String.eqb c) (k_registry kn) = true) by (apply existsb_exists; exists c; split; [auto|apply String.eqb_refl]); congruence).
      inversion C'; subst; [contradiction|]. match goal with H : kn = Known _ _ _ _ |- _ => rewrite H end. reflexivity.
Qed.
Print Assumptions C52_all_histories.

(** The state reached in [C94_example]: the object 0 knows "A" only, so it can be used after a reset no more; a crash in a call for "C" after three writes. *)
Example C50_all_example : exists m a k v b, Runs live_text SpecExact.accepted agree fresh c94_history (fst (steps live_unparsed live_text clean c94_history)) m /\
  m_objects m = (a ++ (k, v) :: b)%list /\ List.length a = 0 /\ k_registry k = ["A"] /\ ~ In "C" (k_registry k) /\
  fst (step live_unparsed live_text (snd (steps live_unparsed live_text clean c94_history)) (Use 0 (vlist [vint]) "C")) = Some (Val (vlist [vint])) /\
  fst (steps live_unparsed live_text (snd (steps live_unparsed live_text clean (c94_history ++ [Crash (vlist [vint]) "C" 0 1]))) [New true; Use 0 (vlist [vstr]) "C"]) = [None; Some (Val (vlist [vstr]))].
Proof.
  destruct C94_example as (m & _ & _ & _ & R & S1 & O & F). exists m, [], (Known ["A"] ["A"] ["A"] ["A"]), false, [(Known ["B"] ["B"] ["B"] ["B"], false)].
  split; [exact R|]. split; [exact O|]. split; [reflexivity|]. split; [reflexivity|]. split; [intros [X|[]]; discriminate|]. split; vm_compute; reflexivity.
Qed.
