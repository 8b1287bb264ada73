(** C49: what a file that is read back has at the ends of its lines.
    Model: Live.v [universal]; lazy_type_hint_live.py:77 and 130 read with [Path.read_text]. *)
From Coq Require Import Ascii String List Bool Arith.
From Verif Require Import PyStr PyStrFacts SpecText SpecNames Live SpecLive PropsLive PropsMachine.
Import ListNotations.
Local Open Scope string_scope.
Local Open Scope nat_scope.

(** Python's text mode: a carriage return with a following line feed, and any other carriage return, are read as one line feed. *)
Inductive LineEnds : string -> string -> Prop :=
  | le_end : LineEnds "" ""
  | le_both : forall c d s r, code c = 13 -> code d = 10 -> LineEnds s r -> LineEnds (String c (String d s)) (String d r)
  | le_return : forall c d s r, code c = 13 -> code d = 10 -> (forall s', s <> String d s') -> LineEnds s r -> LineEnds (String c s) (String d r)
  | le_other : forall c s r, code c <> 13 -> LineEnds s r -> LineEnds (String c s) (String c r).

Lemma code_inj a b : code a = code b -> a = b.
Proof. unfold code. intros H. rewrite <- (ascii_nat_embedding a), <- (ascii_nat_embedding b). now rewrite H. Qed.
Lemma universal_ends : forall n s, String.length s <= n -> LineEnds s (universal s).
Proof.
  induction n as [|n IH]; intros [|c s] L; cbn [String.length] in L; try constructor; [now apply Nat.nle_succ_0 in L|]. apply le_S_n in L.
  cbn [universal]. destruct (Nat.eqb_spec (ord c) 13) as [Hc|Hc].
  - destruct s as [|d s].
    + apply le_return with (s := "") (r := ""); try constructor; auto. discriminate.
    + destruct (Nat.eqb_spec (ord d) 10) as [Hd|Hd].
      * apply le_both; auto. apply IH. cbn [String.length] in L. apply Nat.lt_le_incl. exact L.
      * apply le_return; auto. intros s' E. injection E as -> _. now apply Hd.
  - apply le_other; auto.
Qed.
Lemma line_ends_one s r : LineEnds s r -> forall r', LineEnds s r' -> r = r'.
Proof.
  induction 1 as [|c d s r Hc Hd H IH|c d s r Hc Hd N H IH|c s r Hc H IH]; intros r' K; inversion K; subst; try congruence.
  - f_equal. auto.
  - exfalso. match goal with N : forall s', _ <> String ?e s' |- _ => apply (N s); f_equal; apply code_inj; congruence end.
  - exfalso. match goal with s0 : string |- _ => apply (N s0); f_equal; apply code_inj; congruence end.
  - f_equal; [apply code_inj; congruence|auto].
  - f_equal. auto.
Qed.

(** Every text has one reading, the one of the model. *)
Theorem C49_line_ends : forall text r, LineEnds text r <-> universal text = r.
Proof.
  intros text r. split; [intros H; exact (line_ends_one _ _ (universal_ends _ text (le_n _)) r H)|intros <-; exact (universal_ends _ text (le_n _))].
Qed.
Print Assumptions C49_line_ends.

(** So the texts that a validated call compares (C49_all_calls) are the generated one and the file with these line ends. *)
Theorem C49_agreement : forall text old, agree text old <-> exists read r, LineEnds old read /\ Compared text r /\ Compared read r.
Proof.
  intros text old. unfold agree. split.
  - intros (r & A & B). exists (universal old), r. split; auto. now apply C49_line_ends.
  - intros (read & r & L & A & B). apply C49_line_ends in L. subst. eauto.
Qed.
Print Assumptions C49_agreement.

Definition ended (a b c : string) : string := a ++ String (ascii_of_nat 13) (String (ascii_of_nat 10) "") ++ b ++ String (ascii_of_nat 13) "" ++ c.
Definition fed (a b c : string) : string := a ++ String (ascii_of_nat 10) "" ++ b ++ String (ascii_of_nat 10) "" ++ c.
Example C49_line_ends_example : LineEnds (ended "a = 1" "b" "") (fed "a = 1" "b" "") /\ agree (fed "x" "y" "z") (ended "x" "y" "z").
Proof. split; [apply C49_line_ends; reflexivity|]. apply agree_spec. vm_compute. reflexivity. Qed.
