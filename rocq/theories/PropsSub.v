(** C98: objects of subclasses of the live class. *)
From Coq Require Import Ascii String List Bool Arith ZArith Lia.
From Verif Require Import PyStr Exc Dispatch Values Samples PyFile SpecPrivate SpecVars Live LiveSub SpecLive LiveText LiveFacts LiveSample PropsLive PropsVars.
Import ListNotations.
Local Open Scope string_scope.

(** For the class itself this is the model of the other theorems. *)
Theorem C98_same : forall unparsed d, open_as unparsed "LazyTypeHintLive" d = open_live unparsed d.
Proof. reflexivity. Qed.
Print Assumptions C98_same.

(** In every state of the disk: with a stub the object is the same for every class; without one, no object of a class can be made whose name is not that of a class in the file. *)
Theorem C98_all_classes : forall unparsed lines d cls, remove_all_private_methods unparsed = Val lines ->
  (forall text, d_stub d = Some text -> open_as unparsed cls d = open_live unparsed d /\ exists l, open_live unparsed d = Val l) /\
  (d_stub d = None -> (forall l, In l lines -> ~ Has ("class " ++ cls ++ "(") l) -> open_as unparsed cls d = Raise ValueError) /\
  (forall l, d_stub d = None -> open_as unparsed cls d = Val l -> exists line, In line lines /\ Has ("class " ++ cls ++ "(") line).
Proof.
  intros unparsed lines d cls E. unfold open_as, open_live, lines_for. destruct (C95_all_files cls lines) as (places & _ & N & F).
  split; [|split].
  - intros text ->. split; [reflexivity|eauto].
  - intros -> H. rewrite E. cbn [andthen]. now apply N.
  - intros l -> H. rewrite E in H. cbn [andthen] in H. destruct (search_first ("class " ++ cls ++ "(") lines) as [[X _]|(up & (a & x & b & -> & _ & X & _) & _)].
    + rewrite (N X) in H. discriminate.
    + exists x. split; [apply in_or_app; right; now left|exact X].
Qed.
Print Assumptions C98_all_classes.

(** After every history: the class file stub decides. *)
Theorem C98_history : forall D unparsed (generate : D -> string -> exc string) lines os cls, remove_all_private_methods unparsed = Val lines -> (forall l, In l lines -> ~ Has ("class " ++ cls ++ "(") l) ->
  let d := w_disk (snd (steps unparsed generate clean os)) in
  (exists l, open_as unparsed cls d = Val l) <-> d_stub d <> None.
Proof.
  intros D unparsed generate lines os cls E H d. destruct (C98_all_classes unparsed lines d cls E) as (A & B & _). destruct (d_stub d) as [text|] eqn:Ed.
  - split; [discriminate|]. intros _. destruct (A text eq_refl) as [-> X]. exact X.
  - split; [|congruence]. intros (l & Hl). rewrite (B eq_refl H) in Hl. discriminate.
Qed.
Print Assumptions C98_history.

(** The file as it is: a subclass called Mine cannot be used first. *)
Definition stub_head (l : list string) : bool := match l with x :: _ => String.eqb x "from lazy_type_hint.generators.build.A import A" | [] => false end.
Theorem C98_subclass_refuted : 
  (exists l, open_as live_unparsed "LazyTypeHintLive" (w_disk clean) = Val l) /\
  open_as live_unparsed "Mine" (w_disk clean) = Raise ValueError.
Proof. split; [exists (template_lines live_template); exact live_initial|]. vm_compute. reflexivity. Qed.
Print Assumptions C98_subclass_refuted.
Example C98_example : exists lines, remove_all_private_methods live_unparsed = Val lines /\ (forall l, In l lines -> ~ Has ("class " ++ "Mine" ++ "(") l) /\
  d_stub (w_disk (snd (steps live_unparsed live_text clean [New false; Use 0 (vlist [vint]) "A"]))) <> None /\
  match open_as live_unparsed "Mine" (w_disk (snd (steps live_unparsed live_text clean [New false; Use 0 (vlist [vint]) "A"]))) with Val l => stub_head l | _ => false end = true.
Proof.
  destruct (remove_all_private_methods live_unparsed) as [lines| |] eqn:E; [|vm_compute in E; discriminate..].
  exists lines. split; [reflexivity|]. split; [|split].
  - assert (X : forallb (fun l => negb (contains ("class " ++ "Mine" ++ "(") l)) lines = true).
    { assert (Y : match remove_all_private_methods live_unparsed with Val lines => forallb (fun l => negb (contains ("class " ++ "Mine" ++ "(") l)) lines | _ => false end = true) by (vm_compute; reflexivity).
      rewrite E in Y. exact Y. }
    intros l Hl. rewrite forallb_forall in X. specialize (X l Hl). apply negb_true_iff in X. now apply has_not.
  - intros X. assert (Y : match d_stub (w_disk (snd (steps live_unparsed live_text clean [New false; Use 0 (vlist [vint]) "A"]))) with None => true | _ => false end = false) by (vm_compute; reflexivity). rewrite X in Y. discriminate.
  - vm_compute. reflexivity.
Qed.
